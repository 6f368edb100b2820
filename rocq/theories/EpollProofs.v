(** Proofs about epoll: the ready set and the listeners against the history. *)
From Verif Require Import Base FMap EpollModel EpollSpec EpollEntryProofs.
#[local] Arguments eqb : simpl never.
#[local] Arguments get : simpl never.
#[local] Arguments put : simpl never.
#[local] Arguments del : simpl never.

Lemma last_app {A} (a b : list A) d : last (a ++ b) d = last b (last a d).
Proof.
  revert d. induction a as [|x a IH]; intros d; [reflexivity|]. destruct a as [|y a].
  - cbn [app last]. destruct b as [|z b]; [reflexivity|]. clear IH. revert z. induction b as [|u b IHb]; intros z; [reflexivity|exact (IHb u)].
  - change (last ((x :: y :: a) ++ b) d) with (last ((y :: a) ++ b) d). rewrite IH. reflexivity.
Qed.

(** The ready set holds exactly the ready entries, each under its own priority. [x] is a key whose
    entry may not yet have been brought up to date. *)
Record heap_ok (p : epoll) (x : option key) : Prop := {
  ho_in : forall q k, In (q, k) (ready p) <-> exists e, get k (monitoring p) = Some e /\ priority e = Some q;
  ho_pri : NoDup (map fst (ready p));
  ho_key : NoDup (map snd (ready p));
  ho_low : forall y, In y (ready p) -> pri_counter p < fst y;
  ho_ready : forall k e, Some k <> x -> get k (monitoring p) = Some e -> (entry_ready e = true <-> priority e <> None) }.

(** New members come after all those present. *)
Definition grow (p p' : epoll) : Prop :=
  pri_counter p' <= pri_counter p /\ forall y, In y (ready p') -> In y (ready p) \/ fst y <= pri_counter p.
(** Entries that remain ready keep their place. *)
Definition stay (p p' : epoll) : Prop :=
  forall k e q e', get k (monitoring p) = Some e -> priority e = Some q -> get k (monitoring p') = Some e' ->
    entry_ready e' = true -> priority e' = Some q.

Lemma heap_remove_in q l y : In y (heap_remove q l) <-> In y l /\ fst y <> q.
Proof. unfold heap_remove. rewrite filter_In. destruct (Z.eqb_spec (fst y) q); cbn; intuition congruence. Qed.
Lemma nodup_map_filter {A B} (f : A -> B) (g : A -> bool) l : NoDup (map f l) -> NoDup (map f (filter g l)).
Proof.
  induction l as [|a l IH]; [constructor|]. cbn. intros N. inversion N as [|? ? NI N']. destruct (g a); cbn; [|auto].
  constructor; [|auto]. intros I. apply NI. apply in_map_iff in I. destruct I as (z & <- & I). apply filter_In in I.
  apply in_map. tauto.
Qed.
Lemma nodup_map_inj {A B} (f : A -> B) l a b : NoDup (map f l) -> In a l -> In b l -> f a = f b -> a = b.
Proof.
  induction l as [|x l IH]; [contradiction|]. cbn. intros N IA IB E. inversion N as [|? ? NI N'].
  destruct IA as [->|IA], IB as [->|IB]; auto.
  - exfalso. apply NI. rewrite E. now apply in_map.
  - exfalso. apply NI. rewrite <- E. now apply in_map.
Qed.

Lemma refresh_ready_ok p k p' : heap_ok p (Some k) -> refresh_ready p k = Some p' ->
  heap_ok p' None /\ (forall k', k' <> k -> get k' (monitoring p') = get k' (monitoring p)) /\
  match get k (monitoring p) with
  | None => get k (monitoring p') = None
  | Some e => exists e', get k (monitoring p') = Some e' /\ set_priority e' None = set_priority e None /\
      (forall q, priority e = Some q -> entry_ready e = true -> priority e' = Some q)
  end /\ grow p p' /\ readable p' = readable p /\ pri_counter p - 1 <= pri_counter p'.
Proof.
  intros [HI HP HK HL HR] E. unfold refresh_ready in E.
  assert (SAME : (forall e, get k (monitoring p) = Some e -> (entry_ready e = true <-> priority e <> None)) -> p' = p ->
    heap_ok p' None /\ (forall k', k' <> k -> get k' (monitoring p') = get k' (monitoring p)) /\
    match get k (monitoring p) with
    | None => get k (monitoring p') = None
    | Some e => exists e', get k (monitoring p') = Some e' /\ set_priority e' None = set_priority e None /\
        (forall q, priority e = Some q -> entry_ready e = true -> priority e' = Some q)
    end /\ grow p p' /\ readable p' = readable p /\ pri_counter p - 1 <= pri_counter p').
  { intros Q ->. split.
    - constructor; auto. intros k' e _ G. destruct (eqb_ok k' k) as [->|N]; [auto|]. apply (HR k'); [congruence|exact G].
    - split; [auto|]. split; [|split; [split; [lia|auto]|split; [reflexivity|lia]]].
      destruct (get k (monitoring p)) as [e|] eqn:G; [|reflexivity]. exists e. auto. }
  destruct (get k (monitoring p)) as [e|] eqn:G.
  2:{ injection E as <-. apply SAME; [|reflexivity]. intros e X. discriminate. }
  destruct (entry_ready e) eqn:RD; destruct (priority e) as [q|] eqn:PR.
  - injection E as <-. apply SAME; [|reflexivity]. intros e' X. injection X as <-. rewrite RD, PR. split; [discriminate|reflexivity].
  - unfold take_pri, assert_then in E. destruct (1 <=? pri_counter p) eqn:C; [|discriminate]. ob_in E. injection E as <-.
    cbn [ready monitoring pri_counter readable] in *. split.
    + constructor; cbn [ready monitoring pri_counter].
      * intros q k'. cbn [In]. destruct (eqb_ok k' k) as [->|N].
        -- rewrite get_put_same. split.
           ++ intros [X|X]; [injection X as <-; eexists; split; reflexivity|].
              apply HI in X. destruct X as (e2 & X & Y). rewrite G in X. injection X as <-. rewrite PR in Y. discriminate.
           ++ intros (e2 & X & Y). injection X as <-. cbn in Y. injection Y as <-. now left.
        -- rewrite get_put_other by exact N. rewrite <- HI. split; [intros [X|X]; [congruence|exact X]|auto].
      * cbn. constructor; [|exact HP]. intros X. apply in_map_iff in X. destruct X as (y & E & X). apply HL in X. lia.
      * cbn. constructor; [|exact HK]. intros X. apply in_map_iff in X. destruct X as ([q y] & E & X). cbn in E. subst y.
        apply HI in X. destruct X as (e2 & X & Y). congruence.
      * intros y [<-|X]; [cbn; lia|]. apply HL in X. lia.
      * intros k' e' _ X. destruct (eqb_ok k' k) as [->|N].
        -- rewrite get_put_same in X. injection X as <-. rewrite ready_set_priority, RD. cbn. split; [discriminate|reflexivity].
        -- rewrite get_put_other in X by exact N. apply (HR k'); [congruence|exact X].
    + split; [intros k' N; now apply get_put_other|]. split.
      * rewrite get_put_same. eexists. split; [reflexivity|]. split; [reflexivity|]. congruence.
      * split; [|split; [reflexivity|lia]]. split; cbn; [lia|]. intros y [<-|X]; [right; cbn; lia|auto].
  - injection E as <-. cbn [ready monitoring pri_counter readable] in *.
    assert (QI : In (q, k) (ready p)) by (apply HI; eauto).
    split.
    + constructor; cbn [ready monitoring pri_counter].
      * intros q' k'. rewrite heap_remove_in, HI. cbn [fst]. destruct (eqb_ok k' k) as [->|N].
        -- rewrite get_put_same, G. split.
           ++ intros ((e2 & X & Y) & Z). injection X as <-. congruence.
           ++ intros (e2 & X & Y). injection X as <-. discriminate.
        -- rewrite get_put_other by exact N. split; [tauto|]. intros X. split; [exact X|]. intros ->.
           apply HI in X. pose proof (nodup_map_inj fst _ _ _ HP X QI eq_refl). congruence.
      * now apply nodup_map_filter.
      * now apply nodup_map_filter.
      * intros y X. apply heap_remove_in in X. now apply HL.
      * intros k' e' _ X. destruct (eqb_ok k' k) as [->|N].
        -- rewrite get_put_same in X. injection X as <-. rewrite ready_set_priority, RD. cbn. split; [discriminate|congruence].
        -- rewrite get_put_other in X by exact N. apply (HR k'); [congruence|exact X].
    + split; [intros k' N; now apply get_put_other|]. split.
      * rewrite get_put_same. eexists. split; [reflexivity|]. split; [reflexivity|]. congruence.
      * split; [|split; [reflexivity|lia]]. split; cbn; [lia|]. intros y X. apply heap_remove_in in X. tauto.
  - injection E as <-. apply SAME; [|reflexivity]. intros e' X. injection X as <-. rewrite RD, PR. split; [discriminate|congruence].
Qed.
Lemma refresh_ready_some p k : 1 <= pri_counter p -> exists p', refresh_ready p k = Some p'.
Proof.
  intros C. unfold refresh_ready. destruct (get k (monitoring p)) as [e|]; [|eauto].
  destruct (entry_ready e), (priority e); eauto. unfold take_pri. rewrite assert_true by lia. ob. eauto.
Qed.

(** Telling the listeners of the epoll file. *)
Lemma alternates_app r n n' : alternates r n -> alternates (last n r) n' -> alternates r (n ++ n').
Proof.
  revert r. induction n as [|x n IH]; intros r A B; [exact B|]. destruct A as (E & A). cbn. split; [exact E|]. apply IH; [exact A|].
  destruct n; [exact B|]. replace (last (b :: n) x) with (last (x :: b :: n) r); [exact B|].
  change (last (x :: b :: n) r) with (last (b :: n) r). clear. revert b. induction n as [|c n IH]; intros b; [reflexivity|exact (IH c)].
Qed.
Definition tells (r : bool) (n : list bool) (r' : bool) : Prop := last n r = r' /\ alternates r n.
Lemma tells_app r n r1 n' r2 : tells r n r1 -> tells r1 n' r2 -> tells r (n ++ n') r2.
Proof. intros (E1 & A1) (E2 & A2). subst. split; [apply last_app|now apply alternates_app]. Qed.
Lemma tells_nil r : tells r [] r.
Proof. split; [reflexivity|exact Logic.I]. Qed.

Lemma refresh_state_ok p p' n : refresh_state p = (p', n) -> heap_ok p None ->
  heap_ok p' None /\ monitoring p' = monitoring p /\ ready p' = ready p /\ pri_counter p' = pri_counter p /\
  readable p' = has_ready p' /\ tells (readable p) n (readable p').
Proof.
  unfold refresh_state. intros E [HI HP HK HL HR]. injection E as <- <-. cbn [ready monitoring pri_counter readable].
  split; [constructor; assumption|]. repeat (split; [reflexivity|]).
  unfold has_ready. destruct (ready p), (readable p); cbn; split; cbn; auto.
Qed.

Section Main.
Context (legacy : Z -> bool).

Definition reg_at (h : hist) (w : world) (k : key) : Prop :=
  match get k (monitoring (ep w)), registered h k with
  | Some e, Some (i, d) => entry_ok legacy h k e i d
  | None, None => True
  | _, _ => False
  end.

(** A listener that hears of everything its registration needs. *)
Record hears (l : listener) (k : key) (i : interest) : Prop := {
  hr_key : l_key l = k;
  hr_mask : forall b, has (want i) b = true -> on (l_mask l) b = true;
  hr_closed : st_closed (l_mask l) = true;
  hr_active : legacy (snd k) = true -> st_active (l_mask l) = true;
  hr_grew : l_grew l = et i }.

Definition sel (f : option Z) (l : listener) : bool := match f with Some f => f =? snd (l_key l) | None => true end.

Record winv (h : hist) (w : world) : Prop := {
  wi_files : forall f, files w f = file_state h f;
  wi_reg : forall k, reg_at h w k;
  wi_heap : heap_ok (ep w) None;
  wi_lkeys : NoDup (map l_key (listeners w));
  wi_lreg : forall l, In l (listeners w) -> get (l_key l) (monitoring (ep w)) <> None;
  wi_hears : forall k i d, registered h k = Some (i, d) -> exists l, In l (listeners w) /\ hears l k i;
  wi_adds : forall f, Z.of_nat (length (filter (sel f) (listeners w))) <= adds h f;
  wi_readable : readable (ep w) = has_ready (ep w);
  wi_told : told h = readable (ep w) }.

Lemma drop_in k ls l : In l (drop_listener k ls) <-> In l ls /\ l_key l <> k.
Proof. unfold drop_listener. rewrite filter_In. destruct (eqb_ok (l_key l) k); cbn; intuition congruence. Qed.
Lemma drop_len k ls f : (length (filter (sel f) (drop_listener k ls)) <= length (filter (sel f) ls))%nat.
Proof.
  unfold drop_listener. induction ls as [|a ls IH]; [reflexivity|]. cbn. destruct (negb _); cbn; destruct (sel f a); cbn; lia.
Qed.
Lemma drop_len_lt k ls f l : In l ls -> l_key l = k -> sel f l = true ->
  (S (length (filter (sel f) (drop_listener k ls))) <= length (filter (sel f) ls))%nat.
Proof.
  intros I K S. induction ls as [|a ls IH]; [contradiction|]. destruct I as [->|I].
  - cbn. rewrite S. unfold drop_listener. cbn. rewrite K, keqb_refl. cbn. apply le_n_S. apply (drop_len k ls f).
  - specialize (IH I). unfold drop_listener in *. cbn. destruct (negb _); cbn; destruct (sel f a); cbn; lia.
Qed.

Lemma grow_trans p p1 p2 : grow p p1 -> grow p1 p2 -> grow p p2.
Proof.
  intros (C & G) (C' & G'). split; [lia|]. intros y I. apply G' in I. destruct I as [I|I]; [auto|right; lia].
Qed.
Lemma grow_eq p p' : pri_counter p' = pri_counter p -> ready p' = ready p -> grow p p'.
Proof. intros E R. split; [lia|]. rewrite R. auto. Qed.

(** ** Callbacks of a file change *)
Section Change.
Context (h : hist) (f : Z) (s : fstate) (grew : bool).
Let changed : fstate := st_xor s (file_state h f).
Let h' : hist := (Change f s grew, Ok, []) :: h.

(** While the listeners [todo] are still to be called; [w0] is the world before. *)
Record minv (w0 : world) (todo : list listener) (w : world) : Prop := {
  mi_files : forall g, files w g = file_state h' g;
  mi_new : forall k, ~ In k (map l_key todo) -> reg_at h' w k;
  mi_old : forall k, In k (map l_key todo) -> reg_at h w k;
  mi_heap : heap_ok (ep w) None;
  mi_lkeys : NoDup (map l_key (listeners w));
  mi_lsub : forall l, In l (listeners w) -> In l (listeners w0) /\ get (l_key l) (monitoring (ep w)) <> None;
  mi_lkeep : forall l, In l (listeners w0) -> get (l_key l) (monitoring (ep w)) <> None -> In l (listeners w);
  mi_llen : forall g, (length (filter (sel g) (listeners w)) <= length (filter (sel g) (listeners w0)))%nat;
  mi_readable : readable (ep w) = has_ready (ep w);
  mi_grow : grow (ep w0) (ep w);
  mi_stay : stay (ep w0) (ep w);
  mi_pri_todo : forall k, In k (map l_key todo) -> get k (monitoring (ep w)) = get k (monitoring (ep w0)) }.

Lemma registered_change k : registered h' k = if (f =? snd k) && st_closed s then None else registered h k.
Proof. reflexivity. Qed.
Lemma other_file k e i d : f <> snd k -> entry_ok legacy h k e i d -> entry_ok legacy h' k e i d.
Proof.
  intros N OK. apply (ok_ext legacy h); [| | |exact OK].
  - cbn. destruct (Z.eqb_spec f (snd k)); [contradiction|reflexivity].
  - reflexivity.
  - intros b. cbn. destruct (Z.eqb_spec f (snd k)); [contradiction|reflexivity].
Qed.

Lemma call_listener_ok w0 l todo w w' n :
  winv h w0 -> minv w0 (l :: todo) w -> NoDup (map l_key (l :: todo)) -> In l (listeners w0) -> snd (l_key l) = f ->
  call_listener w l s changed grew = Some (w', n) ->
  minv w0 todo w' /\ tells (readable (ep w)) n (readable (ep w')) /\ pri_counter (ep w) - 1 <= pri_counter (ep w').
Proof.
  intros WI [MF MN MO MH MLK MLS MLK2 MLL MR MG MS MP] ND LI LF E.
  inversion ND as [|? ? NK ND']. subst x l0.
  assert (KI : In (l_key l) (map l_key (l :: todo))) by now left.
  pose proof (MP _ KI) as GE. pose proof (wi_lreg h w0 WI l LI) as GN.
  destruct (get (l_key l) (monitoring (ep w0))) as [e|] eqn:G0; [|congruence]. clear GN.
  pose proof (MO _ KI) as RK. unfold reg_at in RK. rewrite GE in RK.
  destruct (registered h (l_key l)) as [[i d]|] eqn:RG; [|contradiction].
  destruct (wi_hears h w0 WI _ i d RG) as (l2 & LI2 & HE).
  assert (l2 = l) as ->.
  { apply (nodup_map_inj l_key (listeners w0)); [apply (wi_lkeys h w0 WI)|exact LI2|exact LI|apply (hr_key _ _ _ HE)]. }
  unfold call_listener in E. rewrite (hr_grew _ _ _ HE) in E.
  destruct (st_intersects (l_mask l) changed || grew && et i) eqn:FL.
  - unfold notify_entry in E. rewrite GE in E.
    destruct (notify e s changed (grew && et i)) as [e1|] eqn:NE; [|discriminate E]. ob_in E.
    assert (SP : priority e1 = priority e).
    { unfold notify, assert_then in NE. destruct (negb _ || _); [|discriminate]. injection NE as <-. reflexivity. }
    set (p1 := set_monitoring (ep w) (put (l_key l) e1 (monitoring (ep w)))) in *.
    assert (H1 : heap_ok p1 (Some (l_key l))).
    { destruct MH as [HI HP HK HL HR]. constructor; auto.
      - intros q k. cbn. rewrite HI. destruct (eqb_ok k (l_key l)) as [->|N].
        + rewrite get_put_same. split; intros (e2 & X & Y).
          * rewrite GE in X. injection X as <-. exists e1. split; [reflexivity|congruence].
          * injection X as <-. exists e. split; [exact GE|congruence].
        + change ((exists e0, get k (monitoring (ep w)) = Some e0 /\ priority e0 = Some q) <->
                  (exists e0, get k (put (l_key l) e1 (monitoring (ep w))) = Some e0 /\ priority e0 = Some q)).
          rewrite get_put_other by exact N. reflexivity.
      - intros k e2 N X. cbn in X. change (get k (put (l_key l) e1 (monitoring (ep w))) = Some e2) in X.
        rewrite get_put_other in X by congruence. apply (HR k); [congruence|exact X]. }
    destruct (refresh_ready p1 (l_key l)) as [p2|] eqn:RR; [|discriminate E]. ob_in E.
    destruct (refresh_ready_ok _ _ _ H1 RR) as (H2 & GO & GK & GR & RE & CT).
    assert (G1 : get (l_key l) (monitoring p1) = Some e1) by apply get_put_same.
    rewrite G1 in GK. destruct GK as (e2 & G2 & S2 & Q2).
    assert (CT1 : pri_counter p1 = pri_counter (ep w)) by reflexivity.
    assert (GR1 : grow (ep w) p2) by exact GR.
    destruct (st_closed s) eqn:CS.
    + (* the file closed *)
      destruct (refresh_state _) as [p3 n3] eqn:RS in E. injection E as <- <-.
      set (p2d := set_monitoring p2 (del (l_key l) (monitoring p2))) in *. cbn [ep] in RS.
      assert (NR : entry_ready e2 = false).
      { rewrite (ready_cong e2 e1) by exact S2. unfold notify, assert_then in NE. destruct (negb _ || _); [|discriminate]. injection NE as <-.
        unfold entry_ready. cbn. rewrite CS. now destruct (is_legacy e). }
      assert (NP : priority e2 = None).
      { destruct (priority e2) eqn:PE; [|reflexivity]. apply (ho_ready _ _ H2 _ _ ltac:(discriminate)) in G2.
        destruct G2 as (_ & Y). rewrite Y in NR; [discriminate|congruence]. }
      assert (H3 : heap_ok p2d None).
      { destruct H2 as [HI HP HK HL HR]. constructor; auto; cbn.
        - intros q k. change (In (q, k) (ready p2) <-> exists e0, get k (del (l_key l) (monitoring p2)) = Some e0 /\ priority e0 = Some q).
          rewrite HI. destruct (eqb_ok k (l_key l)) as [->|N].
          + rewrite get_del_same, G2. split; intros (e3 & X & Y); [|discriminate]. injection X as <-. congruence.
          + rewrite get_del_other by exact N. reflexivity.
        - intros k e3 _ X. destruct (eqb_ok k (l_key l)) as [->|N]; [rewrite get_del_same in X; discriminate|].
          rewrite get_del_other in X by exact N. apply (HR k); [discriminate|exact X]. }
      destruct (refresh_state_ok _ _ _ RS H3) as (H4 & M4 & R4 & C4 & B4 & T4).
      assert (GET : forall k, get k (monitoring p3) = if eqb k (l_key l) then None else get k (monitoring (ep w))).
      { intros k. rewrite M4. cbn. change (get k (del (l_key l) (monitoring p2)) = if eqb k (l_key l) then None else get k (monitoring (ep w))).
        rewrite get_del. destruct (eqb_ok k (l_key l)) as [Q|N]; [reflexivity|].
        rewrite GO by exact N. apply get_put_other. exact N. }
      split; [|split; [exact (eq_ind _ (fun r => tells r n3 _) T4 _ RE)|cbn [ep set_ep]; rewrite C4; change (pri_counter p2d) with (pri_counter p2); clear - CT CT1; lia]].
      constructor; cbn [files ep listeners set_ep]; auto.
      * intros k NI. unfold reg_at. cbn [ep set_ep]. rewrite GET. destruct (eqb_ok k (l_key l)) as [->|N].
        -- rewrite registered_change, LF, Z.eqb_refl, CS. exact Logic.I.
        -- apply (MN k). cbn. intros [X|X]; [congruence|contradiction].
      * intros k I. unfold reg_at. cbn [ep set_ep]. rewrite GET. destruct (eqb_ok k (l_key l)) as [->|N]; [contradiction|].
        apply (MO k). now right.
      * now apply nodup_map_filter.
      * intros l2 I. apply drop_in in I. destruct I as (I & N). destruct (MLS l2 I) as (I0 & GN). split; [exact I0|].
        rewrite GET. now destruct (eqb_ok (l_key l2) (l_key l)).
      * intros l2 I0 GN. rewrite GET in GN. destruct (eqb_ok (l_key l2) (l_key l)) as [X|N]; [congruence|]. apply drop_in. auto.
      * intros g. pose proof (drop_len (l_key l) (listeners w) g) as DL. specialize (MLL g). clear - MLL DL. lia.
      * apply (grow_trans _ (ep w)); [exact MG|]. apply (grow_trans _ p2); [exact GR1|]. apply grow_eq; assumption.
      * intros k e3 q e4 X Y Z W. rewrite GET in Z. destruct (eqb_ok k (l_key l)); [discriminate|]. exact (MS k e3 q e4 X Y Z W).
      * intros k I. rewrite GET. destruct (eqb_ok k (l_key l)) as [->|N]; [contradiction|]. apply MP. now right.
    + destruct (refresh_state _) as [p3 n3] eqn:RS in E. injection E as <- <-. cbn [ep set_ep] in RS.
      destruct (refresh_state_ok _ _ _ RS H2) as (H4 & M4 & R4 & C4 & B4 & T4).
      assert (GET : forall k, get k (monitoring p3) = if eqb k (l_key l) then Some e2 else get k (monitoring (ep w))).
      { intros k. rewrite M4. destruct (eqb_ok k (l_key l)) as [->|N]; [exact G2|].
        rewrite GO by exact N. apply get_put_other. exact N. }
      split; [|split; [exact (eq_ind _ (fun r => tells r n3 _) T4 _ RE)|cbn [ep set_ep]; rewrite C4; clear - CT CT1; lia]].
      constructor; cbn [files ep listeners set_ep]; auto.
      * intros k NI. unfold reg_at. cbn [ep set_ep]. rewrite GET. destruct (eqb_ok k (l_key l)) as [->|N].
        -- rewrite registered_change, CS, andb_false_r, RG. apply (ok_cong legacy _ _ e1); [symmetry; exact S2|].
           apply (ok_notified legacy h f s grew Ok [] (l_key l) e); [now rewrite LF|exact CS|exact RK|exact NE].
        -- apply (MN k). cbn. intros [X|X]; [congruence|contradiction].
      * intros k I. unfold reg_at. cbn [ep set_ep]. rewrite GET. destruct (eqb_ok k (l_key l)) as [->|N]; [contradiction|].
        apply (MO k). now right.
      * intros l2 I. destruct (MLS l2 I) as (I0 & GN). split; [exact I0|].
        rewrite GET. destruct (eqb_ok (l_key l2) (l_key l)); congruence.
      * intros l2 I0 GN. rewrite GET in GN. destruct (eqb_ok (l_key l2) (l_key l)) as [X|N]; [|auto].
        apply MLK2; [exact I0|]. rewrite X, GE. discriminate.
      * apply (grow_trans _ (ep w)); [exact MG|]. apply (grow_trans _ p2); [exact GR1|]. apply grow_eq; assumption.
      * intros k e3 q e4 X Y Z W. rewrite GET in Z. destruct (eqb_ok k (l_key l)) as [->|N]; [|exact (MS k e3 q e4 X Y Z W)].
        injection Z as <-. rewrite G0 in X. injection X as <-. apply Q2; [congruence|]. now rewrite <- (ready_cong _ _ S2).
      * intros k I. rewrite GET. destruct (eqb_ok k (l_key l)) as [->|N]; [contradiction|]. apply MP. now right.
  - injection E as <- <-. split; [|split; [apply tells_nil|lia]].
    apply orb_false_iff in FL. destruct FL as (F1 & F2).
    destruct (ok_unnotified legacy h f s grew Ok [] (l_key l) e i d (l_mask l) ltac:(now rewrite LF) RK
      (hr_mask _ _ _ HE) (hr_closed _ _ _ HE) (hr_active _ _ _ HE) F1 F2) as (OK & CS).
    constructor; auto.
    + intros k NI. destruct (eqb_ok k (l_key l)) as [->|N].
      * unfold reg_at. rewrite GE, registered_change, CS, andb_false_r, RG. exact OK.
      * apply MN. cbn. intros [X|X]; [congruence|contradiction].
    + intros k I. apply MO. now right.
    + intros k I. apply MP. now right.
Qed.
Lemma call_listener_some w0 l todo w :
  winv h w0 -> minv w0 (l :: todo) w -> In l (listeners w0) -> snd (l_key l) = f -> 1 <= pri_counter (ep w) ->
  exists w' n, call_listener w l s changed grew = Some (w', n).
Proof.
  intros WI [MF MN MO MH MLK MLS MLK2 MLL MR MG MS MP] LI LF C.
  assert (KI : In (l_key l) (map l_key (l :: todo))) by now left.
  unfold call_listener. destruct (_ || _) eqn:FL; [|eauto]. unfold notify_entry.
  pose proof (MO _ KI) as RK. unfold reg_at in RK.
  destruct (get (l_key l) (monitoring (ep w))) as [e|] eqn:GE; [|eauto].
  destruct (registered h (l_key l)) as [[i d]|] eqn:RG; [|contradiction].
  destruct (wi_hears h w0 WI _ i d RG) as (l2 & LI2 & HE).
  assert (l2 = l) as ->.
  { apply (nodup_map_inj l_key (listeners w0)); [apply (wi_lkeys h w0 WI)|exact LI2|exact LI|apply (hr_key _ _ _ HE)]. }
  rewrite (hr_grew _ _ _ HE). unfold notify at 1. rewrite (eo_et _ _ _ _ _ _ RK).
  rewrite assert_true by (destruct (et i); [apply orb_true_r|now rewrite andb_false_r]). ob.
  match goal with |- context [refresh_ready ?p ?k] => destruct (refresh_ready_some p k) as (p' & ->) end; [exact C|]. ob.
  destruct (refresh_state _) as [p3 n3]. eauto.
Qed.

Lemma call_listeners_ok w0 ls : forall w w' n, winv h w0 -> minv w0 ls w -> NoDup (map l_key ls) ->
  (forall l, In l ls -> In l (listeners w0) /\ snd (l_key l) = f) ->
  call_listeners w ls s changed grew = Some (w', n) ->
  minv w0 [] w' /\ tells (readable (ep w)) n (readable (ep w')) /\ pri_counter (ep w) - Z.of_nat (length ls) <= pri_counter (ep w').
Proof.
  induction ls as [|l ls IH]; intros w w' n WI M ND LI E.
  - cbn in E. injection E as <- <-. split; [exact M|]. split; [apply tells_nil|cbn; lia].
  - cbn [call_listeners] in E. destruct (call_listener w l s changed grew) as [[w1 n1]|] eqn:C1; [|discriminate]. ob_in E.
    destruct (call_listeners w1 ls s changed grew) as [[w2 n2]|] eqn:C2; [|discriminate]. ob_in E. injection E as <- <-.
    destruct (LI l (or_introl eq_refl)) as (LI1 & LF).
    destruct (call_listener_ok _ _ _ _ _ _ WI M ND LI1 LF C1) as (M1 & T1 & P1).
    inversion ND. subst x l0. destruct (IH w1 w2 n2) as (M2 & T2 & P2); auto.
    { intros x X. apply LI. now right. }
    split; [exact M2|]. split; [eapply tells_app; eauto|]. cbn [length]. lia.
Qed.
Lemma call_listeners_some w0 ls : forall w, winv h w0 -> minv w0 ls w -> NoDup (map l_key ls) ->
  (forall l, In l ls -> In l (listeners w0) /\ snd (l_key l) = f) -> Z.of_nat (length ls) <= pri_counter (ep w) ->
  exists w' n, call_listeners w ls s changed grew = Some (w', n).
Proof.
  induction ls as [|l ls IH]; intros w WI M ND LI C; [cbn; eauto|]. cbn [length call_listeners] in *.
  destruct (LI l (or_introl eq_refl)) as (LI1 & LF).
  destruct (call_listener_some _ _ _ _ WI M LI1 LF) as (w1 & n1 & C1); [lia|]. rewrite C1. ob.
  destruct (call_listener_ok _ _ _ _ _ _ WI M ND LI1 LF C1) as (M1 & T1 & P1).
  inversion ND. subst x l0. destruct (IH w1) as (w2 & n2 & C2); auto.
  { intros x X. apply LI. now right. }
  { lia. }
  rewrite C2. ob. eauto.
Qed.

Lemma minv_start w0 : winv h w0 -> minv w0 (filter (fun l => snd (l_key l) =? f) (listeners w0))
  {| files := fun g => if g =? f then s else files w0 g; ep := ep w0; listeners := listeners w0 |}.
Proof.
  intros [WF WR WH WK WL WE WA WB WT].
  assert (IL : forall k, ~ In k (map l_key (filter (fun l => snd (l_key l) =? f) (listeners w0))) ->
    registered h k <> None -> f <> snd k).
  { intros k NI RG ->. apply NI. destruct (registered h k) as [[i d]|] eqn:Q; [|congruence].
    destruct (WE k i d Q) as (l & LI & HE). rewrite <- (hr_key _ _ _ HE). apply in_map. apply filter_In. split; [exact LI|].
    rewrite (hr_key _ _ _ HE). apply Z.eqb_refl. }
  constructor; cbn [files ep listeners]; auto.
  - intros g. cbn. rewrite (Z.eqb_sym f g). destruct (g =? f); [reflexivity|apply WF].
  - intros k NI. specialize (WR k). unfold reg_at in *. cbn [ep]. rewrite registered_change.
    destruct (get k (monitoring (ep w0))) as [e|], (registered h k) as [[i d]|] eqn:RG; try contradiction.
    + pose proof (IL k NI ltac:(congruence)) as N. destruct (Z.eqb_spec f (snd k)); [contradiction|]. cbn. now apply other_file.
    + now destruct (_ && _).
  - intros k _. exact (WR k).
  - split; [apply Z.le_refl|auto].
  - intros k e q e' X Y Z W. congruence.
Qed.
Lemma minv_end w0 w n : winv h w0 -> minv w0 [] w -> tells (readable (ep w0)) n (readable (ep w)) ->
  winv ((Change f s grew, Ok, n) :: h) w.
Proof.
  intros WI [MF MN MO MH MLK MLS MLK2 MLL MR MG MS MP] (T & _). constructor.
  - exact MF.
  - intros k. pose proof (MN k (fun x => x)) as RA. unfold reg_at in *.
    change (registered ((Change f s grew, Ok, n) :: h) k) with (registered h' k).
    destruct (get k (monitoring (ep w))), (registered h' k) as [[i d]|]; auto. apply (ok_ext legacy h'); auto.
  - exact MH.
  - exact MLK.
  - intros l I. now apply MLS.
  - intros k i d R. pose proof (MN k (fun x => x)) as RA. unfold reg_at in RA.
    change (registered h' k = Some (i, d)) in R. rewrite R in RA.
    destruct (get k (monitoring (ep w))) as [e|] eqn:G; [|contradiction].
    rewrite registered_change in R. destruct (_ && _); [discriminate|].
    destruct (wi_hears h w0 WI k i d R) as (l & LI & HE). exists l. split; [|exact HE].
    apply MLK2; [exact LI|]. rewrite (hr_key _ _ _ HE), G. discriminate.
  - intros g. pose proof (wi_adds h w0 WI g). specialize (MLL g). cbn [adds]. lia.
  - exact MR.
  - cbn [told]. rewrite (wi_told h w0 WI). exact T.
Qed.
End Change.

Lemma change_ok h w f s g w' n : winv h w -> change w f s g = Some (w', n) ->
  winv ((Change f s g, Ok, n) :: h) w' /\ tells (readable (ep w)) n (readable (ep w')) /\ grow (ep w) (ep w') /\
  stay (ep w) (ep w') /\ pri_counter (ep w) - adds h (Some f) <= pri_counter (ep w').
Proof.
  intros WI E. unfold change in E. pose proof (minv_start h f s g w WI) as M0. rewrite (wi_files h w WI) in E.
  pose proof (wi_adds h w WI (Some f)) as AD.
  assert (LEN : Z.of_nat (length (filter (fun l => snd (l_key l) =? f) (listeners w))) <= adds h (Some f)).
  { erewrite filter_ext; [exact AD|]. intros a. cbn. apply Z.eqb_sym. }
  assert (ND : NoDup (map l_key (filter (fun l => snd (l_key l) =? f) (listeners w)))).
  { apply nodup_map_filter. apply (wi_lkeys h w WI). }
  assert (LI : forall l, In l (filter (fun l => snd (l_key l) =? f) (listeners w)) -> In l (listeners w) /\ snd (l_key l) = f).
  { intros l I. apply filter_In in I. destruct I as (I & Q). split; [exact I|]. now apply Z.eqb_eq. }
  destruct (st_is_empty (st_xor s (file_state h f)) && negb g) eqn:EM.
  - (* nothing changed *)
    injection E as <- <-. apply andb_true_iff in EM. destruct EM as (EM & NG). apply negb_true_iff in NG. subst g.
    assert (CA : exists n', call_listeners {| files := fun g => if g =? f then s else files w g; ep := ep w; listeners := listeners w |}
                    (filter (fun l => snd (l_key l) =? f) (listeners w)) s (st_xor s (file_state h f)) false =
                 Some ({| files := fun g => if g =? f then s else files w g; ep := ep w; listeners := listeners w |}, n') /\ n' = []).
    { generalize (filter (fun l => snd (l_key l) =? f) (listeners w)). intros ls. induction ls as [|l ls (n' & IH & ->)]; [cbn; eauto|].
      cbn [call_listeners]. unfold call_listener.
      assert (X : st_intersects (l_mask l) (st_xor s (file_state h f)) = false).
      { clear - EM. destruct (l_mask l), (st_xor s (file_state h f)) as [x1 x2 x3 x4 x5 x6]. unfold st_is_empty in EM. cbn in EM.
        destruct x1, x2, x3, x4, x5, x6; try discriminate. unfold st_intersects, st_is_empty. cbn. now rewrite !andb_false_r. }
      rewrite X. cbn [andb orb]. ob. rewrite IH. ob. eauto. }
    destruct CA as (n' & CA & ->).
    destruct (call_listeners_ok h f s false w _ _ _ _ WI M0 ND LI CA) as (M & T & P).
    cbn [ep] in *. split; [exact (minv_end h f s false w _ [] WI M T)|]. split; [exact T|].
    split; [split; [lia|auto]|]. split; [intros k e q e' X Y Z W; congruence|]. lia.
  - destruct (call_listeners_ok h f s g w _ _ _ _ WI M0 ND LI E) as (M & T & P). cbn [ep] in *.
    split; [exact (minv_end h f s g w _ n WI M T)|]. split; [exact T|].
    split; [exact (mi_grow _ _ _ _ _ _ _ M)|]. split; [exact (mi_stay _ _ _ _ _ _ _ M)|]. lia.
Qed.
Lemma change_some h w f s g : winv h w -> adds h (Some f) <= pri_counter (ep w) -> exists w' n, change w f s g = Some (w', n).
Proof.
  intros WI C. unfold change. pose proof (minv_start h f s g w WI) as M0. rewrite (wi_files h w WI).
  pose proof (wi_adds h w WI (Some f)) as AD. destruct (_ && _); [eauto|].
  apply (call_listeners_some h f s g w); auto.
  - apply nodup_map_filter. apply (wi_lkeys h w WI).
  - intros l I. apply filter_In in I. destruct I as (I & Q). split; [exact I|]. now apply Z.eqb_eq.
  - cbn [ep]. assert (LEN : Z.of_nat (length (filter (fun l => snd (l_key l) =? f) (listeners w))) <= adds h (Some f)); [|lia].
    erewrite filter_ext; [exact AD|]. intros a. cbn. apply Z.eqb_sym.
Qed.
End Main.
