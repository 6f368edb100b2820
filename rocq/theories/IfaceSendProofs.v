(** Proofs about the sending side of a network interface. *)
From Verif Require Import Base FMap NetqModel NetqSpec NetqProofs IfaceModel IfaceSpec.

Section Sending.
Variable kindof : Z -> skind.
Notation peek := (peek_priority kindof).

Record ready (k : kind) (n : Z) (l : aqueue) (q : netq) (m : socks) : Prop := {
  rd_rep : rep k n l q;
  rd_in : forall s, queue_of m s <> [] -> In s (items l);
  rd_own : forall s p, In p (queue_of m s) -> k_sock p = s }.
Lemma ready_more k n n' l q m : n <= n' -> ready k n l q m -> ready k n' l q m.
Proof. intros L [A B C]. constructor; auto. eapply rep_more; eassumption. Qed.

Lemma queue_put s l m x : queue_of (put s l m) x = if x =? s then l else queue_of m x.
Proof. unfold queue_of. rewrite get_put. cbn [eqb Eqb_Z]. destruct (x =? s); reflexivity. Qed.
Lemma has_data_iff m s : has_data m s = true <-> queue_of m s <> [].
Proof. unfold has_data. destruct (queue_of m s); split; congruence. Qed.
Definition pri_now (m : socks) (s : Z) : Z := pri_of (peek m s).

(** Registering a socket with data. *)
Lemma add_ok k n l q m s : rep k n l q -> n < U64_MAX -> queue_of m s <> [] ->
  exists q', add_data_source kindof q m s = Some q' /\
    if nq_contains q s then In s (items l) /\ q' = q else ~ In s (items l) /\ rep k (n + 1) (l ++ [(s, pri_now m s)]) q'.
Proof.
  intros R B D. unfold add_data_source. rewrite assert_true by now apply has_data_iff.
  assert (P : peek m s <> None) by (unfold peek_priority; destruct (queue_of m s); congruence).
  pose proof (push_rep k n l q s (peek m s) R B (fun _ => P)) as H. destruct (nq_contains q s) eqn:C; cbn [negb].
  - destruct H as [I _]. eauto.
  - destruct H as (NI & q' & E & R'). unfold nq_push. rewrite E. eauto.
Qed.

Lemma pop_loop_ok k n : n < U64_MAX -> forall fuel l q m, ready k n l q m -> (length l < fuel)%nat ->
  exists q' m' o, if_pop_loop kindof fuel q m = Some (q', m', o) /\
  match o with
  | None => (forall s, queue_of m s = []) /\ m' = m /\ ready k n [] q' m
  | Some p => exists s r l', queue_of m s = p :: r /\ m' = put s r m /\ ready k (n + 1) l' q' m' /\
      (k = FirstInFirstOut -> exists a x b, l = a ++ x :: b /\ fst x = s /\ (forall y, In y a -> queue_of m (fst y) = []) /\
         l' = b ++ match r with [] => [] | _ => [(s, pri_now m' s)] end) /\
      ((forall y, In y l -> queue_of m (fst y) <> []) -> exists pre x post, l = pre ++ x :: post /\ next_is k pre x post /\ fst x = s /\
         l' = (pre ++ post) ++ match r with [] => [] | _ => [(s, pri_now m' s)] end)
  end.
Proof.
  intros B. induction fuel as [|fuel IH]; intros l q m RD L; [lia|]. pose proof RD as [R IN OWN]. cbn [if_pop_loop].
  destruct (pop_rep k n l q R) as (q1 & o & E & H). rewrite E. ob. destruct o as [s|].
  - destruct H as (pre & x & post & -> & NX & -> & R1). unfold pull_out_packet. destruct (queue_of m (fst x)) as [|p r] eqn:Q.
    + assert (RD1 : ready k n (pre ++ post) q1 m).
      { constructor; auto. intros s D. specialize (IN s D). unfold items in *. rewrite map_app in *. cbn in IN.
        apply in_app_iff in IN. apply in_app_iff. destruct IN as [I|[I|I]]; auto. subst s. contradiction. }
      destruct (IH (pre ++ post) q1 m RD1) as (q' & m' & o & E1 & H1); [rewrite app_length in *; cbn in L; lia|].
      exists q', m', o. split; [exact E1|]. destruct o as [p|]; [|exact H1].
      destruct H1 as (s & r & l' & Q1 & M1 & RD' & F1 & F2). exists s, r, l'. split; [exact Q1|]. split; [exact M1|]. split; [exact RD'|]. split.
      * intros K. destruct (F1 K) as (a & y & b & E2 & S & EM & EL). subst k. cbn in NX. subst pre. cbn [app] in *. exists (x :: a), y, b.
        split; [cbn; now rewrite <- E2|]. split; [exact S|]. split; [|exact EL]. intros z [<-|I]; [exact Q|auto].
      * intros D. exfalso. apply (D x); [apply in_app_iff; right; left; reflexivity|exact Q].
    + assert (OWN' : forall s p0, In p0 (queue_of (put (fst x) r m) s) -> k_sock p0 = s).
      { intros s p0. rewrite queue_put. destruct (Z.eqb_spec s (fst x)) as [->|N]; [intros I; apply OWN; rewrite Q; now right|apply OWN]. }
      assert (IN' : forall s, queue_of m s <> [] -> s = fst x \/ In s (items (pre ++ post))).
      { intros s D. specialize (IN s D). unfold items in *. rewrite map_app in *. cbn in IN. apply in_app_iff in IN. rewrite in_app_iff. destruct IN as [I|[I|I]]; auto. }
      destruct r as [|p2 r].
      * assert (HD : has_data (put (fst x) [] m) (fst x) = false) by (unfold has_data; rewrite queue_put, Z.eqb_refl; reflexivity).
        rewrite HD. ob. do 3 eexists. split; [reflexivity|]. cbv beta iota. exists (fst x), [], (pre ++ post). split; [exact Q|]. split; [reflexivity|]. split.
        { constructor; [eapply rep_more; [|exact R1]; lia| |exact OWN']. intros s. rewrite queue_put. destruct (Z.eqb_spec s (fst x)) as [->|N]; [congruence|].
          intros D. destruct (IN' s D); [contradiction|assumption]. }
        split.
        -- intros ->. cbn in NX. subst pre. exists [], x, post. rewrite app_nil_r. repeat split; auto; intros y [].
        -- intros _. exists pre, x, post. rewrite app_nil_r. auto.
      * assert (HD : has_data (put (fst x) (p2 :: r) m) (fst x) = true) by (unfold has_data; rewrite queue_put, Z.eqb_refl; reflexivity).
        rewrite HD. destruct (add_ok k n (pre ++ post) q1 (put (fst x) (p2 :: r) m) (fst x) R1 B ltac:(now apply has_data_iff)) as (q2 & E2 & H2).
        rewrite E2. ob.
        assert (NI : ~ In (fst x) (items (pre ++ post))).
        { pose proof (rp_nodup _ _ _ _ R) as ND. unfold items in *. rewrite map_app in *. cbn in ND. eapply NoDup_remove_2. exact ND. }
        destruct (nq_contains q1 (fst x)); [destruct H2; contradiction|]. destruct H2 as [_ R2].
        do 3 eexists. split; [reflexivity|]. cbv beta iota. eexists (fst x), (p2 :: r), _. split; [exact Q|]. split; [reflexivity|]. split.
        { constructor; [exact R2| |exact OWN']. intros s. rewrite queue_put. unfold items. rewrite map_app. cbn [map]. rewrite in_app_iff.
          destruct (Z.eqb_spec s (fst x)) as [->|N]; intros D; [right; now left|]. left. destruct (IN' s D); [contradiction|assumption]. }
        split.
        -- intros ->. cbn in NX. subst pre. exists [], x, post. cbn [app]. repeat split; auto; intros y [].
        -- intros _. exists pre, x, post. auto.
  - destruct H as [-> ->]. do 3 eexists. split; [reflexivity|]. cbv beta iota.
    split; [intros s; destruct (queue_of m s) eqn:Q; auto; exfalso; apply (IN s); congruence|]. split; [reflexivity|exact RD].
Qed.

Lemma pop_ok k n l q m : n < U64_MAX -> ready k n l q m -> exists q' m' o, if_pop kindof q m = Some (q', m', o) /\
  match o with
  | None => (forall s, queue_of m s = []) /\ m' = m /\ ready k n [] q' m
  | Some p => exists s r l', queue_of m s = p :: r /\ m' = put s r m /\ ready k (n + 1) l' q' m' /\
      (k = FirstInFirstOut -> exists a x b, l = a ++ x :: b /\ fst x = s /\ (forall y, In y a -> queue_of m (fst y) = []) /\
         l' = b ++ match r with [] => [] | _ => [(s, pri_now m' s)] end) /\
      ((forall y, In y l -> queue_of m (fst y) <> []) -> exists pre x post, l = pre ++ x :: post /\ next_is k pre x post /\ fst x = s /\
         l' = (pre ++ post) ++ match r with [] => [] | _ => [(s, pri_now m' s)] end)
  end.
Proof.
  intros B RD. apply pop_loop_ok; auto. unfold nq_len. rewrite (Permutation_length (rp_members _ _ _ _ (rd_rep _ _ _ _ _ RD))). unfold items. rewrite map_length. lia.
Qed.

Lemma send_ok k n l q m p : n < U64_MAX -> ready k n l q m -> exists q' l', i_step kindof (q, m) (ISend p) = Some ((q', put (k_sock p) (queue_of m (k_sock p) ++ [p]) m), []) /\
  ready k (n + 1) l' q' (put (k_sock p) (queue_of m (k_sock p) ++ [p]) m) /\
  l' = if nq_contains q (k_sock p) then l else l ++ [(k_sock p, pri_now (put (k_sock p) (queue_of m (k_sock p) ++ [p]) m) (k_sock p))].
Proof.
  intros B [R IN OWN]. set (s := k_sock p) in *. set (m' := put s (queue_of m s ++ [p]) m).
  assert (D : queue_of m' s <> []) by (unfold m'; rewrite queue_put, Z.eqb_refl; destruct (queue_of m s); discriminate).
  destruct (add_ok k n l q m' s R B D) as (q' & E & H). cbn [i_step]. fold s. fold m'. rewrite E. ob.
  assert (OWN' : forall x p0, In p0 (queue_of m' x) -> k_sock p0 = x).
  { intros x p0. unfold m'. rewrite queue_put. destruct (Z.eqb_spec x s) as [->|N]; [|apply OWN]. rewrite in_app_iff. intros [I|[<-|[]]]; [now apply OWN|reflexivity]. }
  destruct (nq_contains q s) eqn:C.
  - destruct H as [I ->]. exists q, l. split; [reflexivity|]. split; [|reflexivity]. constructor; [eapply rep_more; [|exact R]; lia| |exact OWN'].
    intros x. unfold m'. rewrite queue_put. destruct (Z.eqb_spec x s) as [->|N]; auto.
  - destruct H as [NI R']. eexists q', _. split; [reflexivity|]. split; [|reflexivity]. constructor; [exact R'| |exact OWN'].
    intros x. unfold m'. rewrite queue_put. unfold items. rewrite map_app, in_app_iff. cbn. destruct (Z.eqb_spec x s) as [->|N]; auto.
Qed.

Lemma step_ready k n l q m o : n < U64_MAX -> ready k n l q m -> exists q' m' out l', i_step kindof (q, m) o = Some ((q', m'), out) /\ ready k (n + 1) l' q' m' /\
  exists g, fair_step (queue_of m) o out g /\ forall s, g s = queue_of m' s.
Proof.
  intros B RD. destruct o as [p| |s].
  - destruct (send_ok k n l q m p B RD) as (q' & l' & E & RD' & _). do 4 eexists. split; [exact E|]. split; [exact RD'|].
    eexists. split; [apply FSend|]. intros x. unfold set_q. rewrite queue_put. reflexivity.
  - destruct (pop_ok k n l q m B RD) as (q' & m' & o & E & H). cbn [i_step]. rewrite E. ob. destruct o as [p|].
    + destruct H as (s & r & l' & Q & -> & RD' & _). do 4 eexists. split; [reflexivity|]. split; [exact RD'|]. eexists. split; [eapply FPop; exact Q|].
      intros x. unfold set_q. rewrite queue_put. reflexivity.
    + destruct H as (EM & -> & RD'). do 4 eexists. split; [reflexivity|]. split; [eapply ready_more; [|exact RD']; lia|]. eexists. split; [apply FNone; exact EM|]. reflexivity.
  - cbn [i_step]. destruct RD as [R IN OWN]. do 3 eexists. exists l. split; [reflexivity|]. split.
    + constructor; [eapply rep_more; [|exact R]; lia| |].
      * intros x. rewrite queue_put. destruct (x =? s); [congruence|apply IN].
      * intros x p. rewrite queue_put. destruct (x =? s); [intros []|apply OWN].
    + eexists. split; [apply FDiscard|]. intros x. unfold set_q. rewrite queue_put. reflexivity.
Qed.
Lemma fair_step_ext f f' o a g : (forall s, f s = f' s) -> fair_step f o a g -> exists g', fair_step f' o a g' /\ forall s, g s = g' s.
Proof.
  intros X S. destruct S as [p|s p r E|E|s].
  - eexists. split; [apply FSend|]. intros x. unfold set_q. rewrite !X. reflexivity.
  - eexists. split; [eapply FPop; rewrite <- X; exact E|]. intros x. unfold set_q. rewrite !X. reflexivity.
  - eexists. split; [apply FNone; intros; now rewrite <- X|exact X].
  - eexists. split; [apply FDiscard|]. intros x. unfold set_q. rewrite !X. reflexivity.
Qed.
Lemma fair_run_ext f ops out g : fair_run f ops out g -> forall f', (forall s, f s = f' s) -> fair_run f' ops out g.
Proof.
  induction 1 as [f g E|f g h o a ops b S R IH]; intros f' X.
  - constructor. intros. now rewrite <- X.
  - destruct (fair_step_ext f f' o a g X S) as (g' & S' & Y). econstructor; [exact S'|auto].
Qed.
Lemma run_ready k : forall ops n l q m, n + Z.of_nat (length ops) <= U64_MAX -> ready k n l q m ->
  exists q' m' out l', i_run kindof (q, m) ops = Some ((q', m'), out) /\ ready k (n + Z.of_nat (length ops)) l' q' m' /\ fair_run (queue_of m) ops out (queue_of m').
Proof.
  induction ops as [|o ops IH]; intros n l q m B RD.
  - exists q, m, [], l. split; [reflexivity|]. split; [eapply ready_more; [|exact RD]; cbn; lia|]. now constructor.
  - cbn [length] in *. destruct (step_ready k n l q m o ltac:(lia) RD) as (q1 & m1 & a & l1 & E & RD1 & g & S & X).
    destruct (IH (n + 1) l1 q1 m1 ltac:(lia) RD1) as (q2 & m2 & b & l2 & E2 & RD2 & F). cbn [i_run]. rewrite E. ob. rewrite E2. ob.
    do 4 eexists. split; [reflexivity|]. split; [eapply ready_more; [|exact RD2]; lia|]. econstructor; [exact S|]. eapply fair_run_ext; [exact F|]. intros; now rewrite X.
Qed.
Lemma new_ready k : ready k 0 [] (nq_new k) [].
Proof. constructor; [apply new_rep| |]; cbn; [congruence|intros s p []]. Qed.
Lemma interface_fair k ops : Z.of_nat (length ops) <= U64_MAX ->
  exists st out g, i_run kindof (i_new k) ops = Some (st, out) /\ fair_run (fun _ => []) ops out g.
Proof.
  intros B. destruct (run_ready k ops 0 [] (nq_new k) [] ltac:(lia) (new_ready k)) as (q & m & out & l & E & _ & F). do 3 eexists. split; [exact E|exact F].
Qed.

(* ------------------------------------------------------------------ first in, first out *)
Section Fifo.
Hypothesis UDP : forall s, kindof s = SUdp.

Definition mine (s : Z) (L : list packet) : list packet := filter (fun p => k_sock p =? s) L.
Record global (n : Z) (L : list packet) (q : netq) (m : socks) : Prop := {
  gl_rising : rising L;
  gl_queue : forall s, queue_of m s = mine s L;
  gl_exact : exists l, ready MinPriority n l q m /\ forall s pr, In (s, pr) l -> exists p r, queue_of m s = p :: r /\ pr = k_pri p }.

Lemma pri_head m s p r : queue_of m s = p :: r -> pri_now m s = k_pri p.
Proof. unfold pri_now, peek_priority. intros ->. rewrite UDP. reflexivity. Qed.

Lemma mine_app s L p : mine s (L ++ [p]) = if k_sock p =? s then mine s L ++ [p] else mine s L.
Proof. unfold mine. rewrite filter_app. cbn. destruct (k_sock p =? s); [reflexivity|apply app_nil_r]. Qed.

Lemma global_send n L q m p : n < U64_MAX -> global n L q m -> rising (L ++ [p]) ->
  exists q' m', i_step kindof (q, m) (ISend p) = Some ((q', m'), []) /\ global (n + 1) (L ++ [p]) q' m'.
Proof.
  intros B [RI QU (l & RD & EX)] RI'. destruct (send_ok MinPriority n l q m p B RD) as (q' & l' & E & RD' & EL). do 2 eexists. split; [exact E|].
  set (s := k_sock p) in *. set (m' := put s (queue_of m s ++ [p]) m) in *.
  assert (QS : forall x, queue_of m' x = mine x (L ++ [p])).
  { intros x. unfold m'. rewrite queue_put, mine_app. fold s. rewrite (Z.eqb_sym s x). destruct (Z.eqb_spec x s) as [->|]; rewrite <- QU; reflexivity. }
  constructor; [exact RI'|exact QS|]. exists l'. split; [exact RD'|].
  assert (OLD : forall x pr, In (x, pr) l -> exists p0 r, queue_of m' x = p0 :: r /\ pr = k_pri p0).
  { intros x pr I. destruct (EX x pr I) as (p0 & r & Q & ->). unfold m'. rewrite queue_put. destruct (Z.eqb_spec x s) as [->|]; [rewrite Q; cbn; eauto|rewrite Q; eauto]. }
  subst l'. destruct (nq_contains q s); [exact OLD|]. intros x pr I. apply in_app_iff in I as [I|[I|[]]]; [auto|]. injection I as <- <-.
  destruct (queue_of m' s) as [|p0 r] eqn:Q. { unfold m' in Q. rewrite queue_put, Z.eqb_refl in Q. destruct (queue_of m s); discriminate. }
  exists p0, r. split; [reflexivity|]. eapply pri_head. exact Q.
Qed.

Lemma rising_le L p : rising L -> In p L -> forall h t, L = h :: t -> k_pri h <= k_pri p /\ (k_pri h = k_pri p -> h = p).
Proof.
  intros R I h t ->. inversion R as [|? ? _ F]; subst. destruct I as [<-|I]; [split; [lia|reflexivity]|]. rewrite Forall_forall in F. specialize (F p I). cbn in F. split; lia.
Qed.

Lemma global_pop n L q m : n < U64_MAX -> global n L q m ->
  exists q' m', i_step kindof (q, m) IPop = Some ((q', m'), [hd_error L]) /\ global (n + 1) (tl L) q' m'.
Proof.
  intros B [RI QU (l & RD & EX)]. destruct (pop_ok MinPriority n l q m B RD) as (q' & m' & o & E & H). cbn [i_step]. rewrite E. ob.
  destruct o as [p|].
  - destruct H as (s & r & l' & Q & -> & RD' & _ & F).
    destruct F as (pre & x & post & -> & NX & <- & EL). { intros y I. destruct (EX (fst y) (snd y)) as (p0 & r0 & -> & _); [destruct y; exact I|discriminate]. }
    assert (PX : snd x = k_pri p).
    { destruct (EX (fst x) (snd x)) as (p0 & r0 & Q0 & ->); [destruct x; apply in_app_iff; right; left; reflexivity|]. rewrite Q in Q0. injection Q0 as <- <-. reflexivity. }
    assert (IP : In p L). { assert (I : In p (mine (fst x) L)) by (rewrite <- QU, Q; left; reflexivity). unfold mine in I. apply filter_In in I. tauto. }
    destruct L as [|h t]; [destruct IP|].
    assert (IH : In (k_sock h) (items (pre ++ x :: post))). { apply (rd_in _ _ _ _ _ RD). rewrite QU. unfold mine. cbn. rewrite Z.eqb_refl. discriminate. }
    assert (HP : h = p).
    { destruct (rising_le (h :: t) p RI IP h t eq_refl) as [LE EQ]. apply EQ. apply in_map_iff in IH as ((hs & hp) & HS & IH). cbn in HS. subst hs.
      destruct (EX _ _ IH) as (p0 & r0 & Q0 & ->). rewrite QU in Q0. unfold mine in Q0. cbn in Q0. rewrite Z.eqb_refl in Q0. injection Q0 as <- _.
      cbn in NX. destruct NX as [N1 N2]. apply in_app_iff in IH as [I|[I|I]].
      - specialize (N1 _ I). cbn in N1. lia.
      - subst x. cbn in PX. exact PX.
      - specialize (N2 _ I). cbn in N2. lia. }
    subst h. assert (SX : k_sock p = fst x) by (apply (rd_own _ _ _ _ _ RD); rewrite Q; left; reflexivity).
    assert (QR : mine (fst x) t = r). { rewrite QU in Q. unfold mine in Q. cbn in Q. rewrite <- SX, Z.eqb_refl in Q. injection Q as Q. rewrite <- SX. exact Q. }
    assert (QS : forall y, queue_of (put (fst x) r m) y = mine y t).
    { intros y. rewrite queue_put. destruct (Z.eqb_spec y (fst x)) as [->|N]; [now symmetry|]. rewrite QU. unfold mine. cbn. rewrite SX.
      destruct (Z.eqb_spec (fst x) y); [congruence|reflexivity]. }
    do 2 eexists. split; [reflexivity|]. cbn [tl]. constructor; [inversion RI; assumption|exact QS|].
    exists l'. split; [exact RD'|]. intros y pr I. rewrite EL in I. apply in_app_iff in I as [I|I].
    + assert (NY : y <> fst x).
      { intros ->. pose proof (rp_nodup _ _ _ _ (rd_rep _ _ _ _ _ RD)) as ND. unfold items in ND. rewrite map_app in ND. cbn in ND. apply NoDup_remove_2 in ND. apply ND.
        rewrite <- map_app. apply in_map_iff. exists (fst x, pr). auto. }
      destruct (EX y pr) as (p0 & r0 & Q0 & ->). { apply in_app_iff in I. apply in_app_iff. cbn. tauto. }
      exists p0, r0. split; [|reflexivity]. rewrite queue_put. destruct (Z.eqb_spec y (fst x)); [contradiction|exact Q0].
    + destruct r as [|p2 r2]; [destruct I|]. destruct I as [I|[]]. injection I as <- <-. exists p2, r2.
      assert (QQ : queue_of (put (fst x) (p2 :: r2) m) (fst x) = p2 :: r2) by (rewrite queue_put, Z.eqb_refl; reflexivity). split; [exact QQ|]. eapply pri_head. exact QQ.
  - destruct H as (EM & -> & RD'). assert (L = []) as ->.
    { destruct L as [|h t]; [reflexivity|]. specialize (EM (k_sock h)). rewrite QU in EM. unfold mine in EM. cbn in EM. rewrite Z.eqb_refl in EM. discriminate. }
    do 2 eexists. split; [reflexivity|]. cbn [tl]. constructor; [exact RI|exact QU|]. exists []. split; [eapply ready_more; [|exact RD']; lia|intros s pr []].
Qed.

Lemma fifo_run : forall ops n L q m, n + Z.of_nat (length ops) <= U64_MAX -> global n L q m -> rising (L ++ sends ops) -> discards ops = [] ->
  exists st, i_run kindof (q, m) ops = Some (st, fifo L ops).
Proof.
  induction ops as [|o ops IH]; intros n L q m B G RI ND; [exists (q, m); reflexivity|]. cbn [length i_run] in *. destruct o as [p| |s]; cbn [fifo].
  - cbn [sends flat_map app] in RI. assert (RI1 : rising ((L ++ [p]) ++ sends ops)) by (rewrite <- app_assoc; exact RI).
    assert (RI2 : rising (L ++ [p])). { clear - RI1. unfold rising in *. revert RI1. generalize (sends ops). induction (L ++ [p]) as [|a l IH]; intros r S; [constructor|].
      cbn in S. inversion S as [|? ? S' F]; subst. constructor; [eapply IH; exact S'|]. apply Forall_app in F. tauto. }
    destruct (global_send n L q m p ltac:(lia) G RI2) as (q1 & m1 & E & G1). rewrite E. ob.
    destruct (IH (n + 1) (L ++ [p]) q1 m1 ltac:(lia) G1 RI1 ND) as (st & E2). rewrite E2. ob. eauto.
  - destruct (global_pop n L q m ltac:(lia) G) as (q1 & m1 & E & G1). rewrite E. ob.
    assert (RI1 : rising (tl L ++ sends ops)). { destruct L; [exact RI|]. cbn in RI. inversion RI; assumption. }
    destruct (IH (n + 1) (tl L) q1 m1 ltac:(lia) G1 RI1 ND) as (st & E2). rewrite E2. ob. destruct L; cbn; eauto.
  - discriminate.
Qed.
Lemma interface_fifo ops : Z.of_nat (length ops) <= U64_MAX -> rising (sends ops) -> discards ops = [] ->
  exists st, i_run kindof (i_new MinPriority) ops = Some (st, fifo [] ops).
Proof.
  intros B RI ND. apply (fifo_run ops 0 [] (nq_new MinPriority) []); auto. constructor; [constructor|reflexivity|]. exists []. split; [apply new_ready|intros s pr []].
Qed.
End Fifo.

(* ------------------------------------------------------------------ round robin *)
Section Fair.
Variables s t : Z.
Hypothesis NE : s <> t.

(** [c]: packets of [t] minus packets of [s] so far. *)
Record turn (n c : Z) (l : aqueue) (q : netq) (m : socks) : Prop := {
  tn_ready : ready FirstInFirstOut n l q m;
  tn_turn : exists a x b, l = a ++ x :: b /\ fst x = s /\ (if existsb (fun y => fst y =? t) a then c <= 0 else c <= 1) }.

Lemma start_turn n l q m : ready FirstInFirstOut n l q m -> queue_of m s <> [] -> turn n 0 l q m.
Proof.
  intros RD D. constructor; [exact RD|]. pose proof (rd_in _ _ _ _ _ RD s D) as I. apply in_map_iff in I as (x & E & I). apply in_split in I as (a & b & ->).
  exists a, x, b. split; [reflexivity|]. split; [exact E|]. destruct (existsb _ a); lia.
Qed.
Lemma from_app u a b : from u (a ++ b) = from u a + from u b.
Proof. unfold from. rewrite filter_app, app_length. lia. Qed.

Lemma turn_step n c l q m o : n < U64_MAX -> turn n c l q m -> queue_of m s <> [] ->
  exists q' m' out, i_step kindof (q, m) o = Some ((q', m'), out) /\ (queue_of m' s <> [] -> exists l', turn (n + 1) (c + from t out - from s out) l' q' m') /\
    c + from t out - from s out <= 1 /\
    Z.of_nat (length (queue_of m' s)) = match o with
      | ISend p => if k_sock p =? s then Z.of_nat (length (queue_of m s)) + 1 else Z.of_nat (length (queue_of m s))
      | IDiscard u => if u =? s then 0 else Z.of_nat (length (queue_of m s))
      | IPop => match out with [Some p] => if k_sock p =? s then Z.of_nat (length (queue_of m s)) - 1 else Z.of_nat (length (queue_of m s)) | _ => Z.of_nat (length (queue_of m s)) end
      end /\ (o = IPop -> exists r, out = [r]) /\ (o <> IPop -> out = []).
Proof.
  intros B [RD (a & x & b & -> & X & C)] D.
  assert (C1 : c <= 1) by (destruct (existsb _ a); lia).
  pose proof (rp_nodup _ _ _ _ (rd_rep _ _ _ _ _ RD)) as ND.
  destruct o as [p| |u].
  - destruct (send_ok FirstInFirstOut n _ q m p B RD) as (q' & l' & E & RD' & EL). do 3 eexists. split; [exact E|]. change (from t []) with 0. change (from s []) with 0. split; [|split; [lia|split; [|split; [congruence|reflexivity]]]].
    + intros _. exists l'. constructor; [exact RD'|]. subst l'. destruct (nq_contains q (k_sock p)).
      * exists a, x, b. repeat split; auto. destruct (existsb _ a); lia.
      * eexists a, x, (b ++ [_]). rewrite <- app_assoc. split; [reflexivity|]. split; [exact X|]. destruct (existsb _ a); lia.
    + rewrite queue_put. rewrite (Z.eqb_sym (k_sock p) s). destruct (Z.eqb_spec s (k_sock p)) as [E2|]; [|reflexivity]. rewrite app_length. rewrite <- E2. cbn. lia.
  - destruct (pop_ok FirstInFirstOut n _ q m B RD) as (q' & m' & o & E & H). cbn [i_step]. rewrite E. ob. destruct o as [p|].
    2: { destruct H as (EM & _). exfalso. apply D, EM. }
    destruct H as (u & r & l' & Q & -> & RD' & F & _). destruct (F eq_refl) as (a2 & y & b2 & EL & Y & ST & EL').
    do 3 eexists. split; [reflexivity|]. assert (KP : k_sock p = u) by (apply (rd_own _ _ _ _ _ RD); rewrite Q; left; reflexivity).
    assert (FR : forall v, from v [Some p] = if u =? v then 1 else 0) by (intros v; unfold from; cbn; rewrite KP; destruct (u =? v); reflexivity).
    rewrite !FR. split; [|split; [|split; [|split; [eauto|congruence]]]].
    2: { destruct (Z.eqb_spec u t), (Z.eqb_spec u s); try lia.
         (* the popped socket is t: it was before s *)
         assert (IA : In y a).
         { assert (NA : ~ In x a2) by (intros I; apply D; rewrite <- X; auto). clear - EL NA X Y NE e. revert a2 EL NA. induction a as [|z a IH]; intros a2 EL NA.
           - destruct a2 as [|z2 a2]; cbn in EL; [injection EL as -> _; congruence|]. injection EL as -> _. exfalso. apply NA. now left.
           - destruct a2 as [|z2 a2]; cbn in EL; [injection EL as -> _; now left|]. injection EL as -> EL. right. eapply IH; [exact EL|]. intros I. apply NA. now right. }
         assert (EX : existsb (fun z => fst z =? t) a = true) by (apply existsb_exists; exists y; split; [exact IA|lia]). rewrite EX in C. lia. }
    2: { rewrite queue_put, KP. rewrite (Z.eqb_sym s u). destruct (Z.eqb_spec u s) as [->|]; [|reflexivity]. rewrite Q. cbn [length]. lia. }
    intros D'. exists l'. constructor; [exact RD'|]. clear F.
    destruct (Z.eqb_spec u s) as [->|NU].
    + (* s itself was served and goes to the end *)
      destruct (Z.eqb_spec s t); [contradiction|].
      assert (a2 = a /\ y = x /\ b2 = b) as (-> & -> & ->).
      { assert (NA : ~ In y a) .
        { intros I. unfold items in ND. rewrite map_app in ND. cbn in ND. apply NoDup_remove_2 in ND. apply ND. rewrite X, <- Y. apply in_app_iff. left. now apply in_map. }
        assert (NA2 : ~ In x a2) by (intros I; apply D; rewrite <- X; auto).
        clear - EL NA NA2. revert a2 EL NA2. induction a as [|z a IH]; intros a2 EL NA2.
        - destruct a2 as [|z2 a2]; cbn in EL; [injection EL as -> ->; auto|]. injection EL as -> _. exfalso. apply NA2. now left.
        - destruct a2 as [|z2 a2]; cbn in EL; [injection EL as -> _; exfalso; apply NA; now left|]. injection EL as -> EL.
          destruct (IH (fun I => NA (or_intror I)) a2 EL (fun I => NA2 (or_intror I))) as (-> & -> & ->). auto. }
      rewrite queue_put, Z.eqb_refl in D'. destruct r as [|p2 r]; [congruence|].
      eexists b, (s, _), []. split; [exact EL'|]. split; [reflexivity|]. destruct (existsb _ b); lia.
    + (* another socket was served: it preceded s *)
      assert (SP : exists a3, a = a2 ++ y :: a3).
      { assert (NA : ~ In x a2) by (intros I; apply D; rewrite <- X; auto). assert (YX : y <> x) by congruence.
        clear - EL NA YX. revert a2 EL NA. induction a as [|z a IH]; intros a2 EL NA.
        - destruct a2 as [|z2 a2]; cbn in EL; [injection EL as -> _; congruence|]. injection EL as -> _. exfalso. apply NA. now left.
        - destruct a2 as [|z2 a2]; cbn in EL; [injection EL as -> _; exists a; reflexivity|]. injection EL as -> EL.
          destruct (IH a2 EL) as (a3 & ->); [intros I; apply NA; now right|]. exists a3. reflexivity. }
      destruct SP as (a3 & ->). rewrite <- app_assoc in EL. cbn in EL. apply app_inv_head in EL. injection EL as EL. subst b2.
      subst l'. rewrite <- app_assoc. cbn [app]. eexists a3, x, _. split; [reflexivity|]. split; [exact X|].
      rewrite existsb_app in C. cbn [existsb] in C. rewrite Y in C.
      assert (TA : existsb (fun z => fst z =? t) a3 = true -> u =? t = false).
      { intros I. destruct (Z.eqb_spec u t) as [UT|]; [|reflexivity]. exfalso. apply existsb_exists in I as (z & I & ZT).
        unfold items in ND. rewrite !map_app in ND. cbn in ND. rewrite <- app_assoc in ND. apply nodup_app_r in ND. cbn in ND. inversion ND as [|? ? NI _]; subst. apply NI.
        apply in_app_iff. left. apply in_map_iff. exists z. split; [lia|exact I]. }
      destruct (existsb (fun z => fst z =? t) a3) eqn:E3.
      * rewrite (TA eq_refl). rewrite !orb_true_r in C. lia.
      * destruct (u =? t); [|lia]. rewrite orb_true_r in C. lia.
  - cbn [i_step]. do 3 eexists. split; [reflexivity|]. change (from t []) with 0. change (from s []) with 0. split; [|split; [lia|split; [|split; [congruence|reflexivity]]]].
    + intros _. destruct (step_ready FirstInFirstOut n _ q m (IDiscard u) B RD) as (q' & m' & out & l' & E & RD' & _). cbn [i_step] in E. injection E as <- <- <-.
      exists (a ++ x :: b). constructor.
      * destruct RD as [R IN OWN]. constructor; [eapply rep_more; [|exact R]; lia| |].
        -- intros z. rewrite queue_put. destruct (z =? u); [congruence|apply IN].
        -- intros z p. rewrite queue_put. destruct (z =? u); [intros []|apply OWN].
      * exists a, x, b. repeat split; auto. destruct (existsb _ a); lia.
    + rewrite queue_put, (Z.eqb_sym u s). destruct (s =? u); reflexivity.
Qed.

Lemma turns : forall ops n c l q m st outs, n + Z.of_nat (length ops) <= U64_MAX -> turn n c l q m ->
  i_run kindof (q, m) ops = Some (st, outs) -> Forall (fun w => 0 < w) (waiting s (Z.of_nat (length (queue_of m s))) ops outs) ->
  c + from t outs - from s outs <= 1.
Proof.
  induction ops as [|o ops IH]; intros n c l q m st outs B T E W.
  - cbn in E. injection E as <- <-. change (from t []) with 0. change (from s []) with 0. destruct T as [_ (a & x & b & _ & _ & C)]. destruct (existsb _ a); lia.
  - cbn [length i_run] in *.
    assert (D : queue_of m s <> []). { destruct (queue_of m s) eqn:Q; [|discriminate]. exfalso. destruct o; inversion W as [|? ? W1 _]; cbn in W1; lia. }
    destruct (turn_step n c l q m o ltac:(lia) T D) as (q1 & m1 & a & E1 & T1 & C1 & LEN & O1 & O2). rewrite E1 in E. ob_in E.
    destruct (i_run kindof (q1, m1) ops) as [(st2, b)|] eqn:E2; [|discriminate]. ob_in E. injection E as <- <-.
    rewrite !from_app.
    assert (W' : Forall (fun w => 0 < w) (waiting s (Z.of_nat (length (queue_of m1 s))) ops b)).
    { destruct o as [p| |u].
      - rewrite (O2 ltac:(discriminate)) in W. cbn [app] in W. cbn [waiting] in W. inversion W; subst. rewrite LEN. assumption.
      - destruct (O1 eq_refl) as (r & ->). cbn [app waiting] in W. inversion W; subst. rewrite LEN. destruct r; assumption.
      - rewrite (O2 ltac:(discriminate)) in W. cbn [app] in W. cbn [waiting] in W. inversion W; subst. rewrite LEN. assumption. }
    assert (D1 : queue_of m1 s <> []).
    { destruct (queue_of m1 s) eqn:Q; [|discriminate]. exfalso. destruct ops as [|[]]; inversion W' as [|? ? W1 _]; cbn in W1; lia. }
    destruct (T1 D1) as (l1 & T2). pose proof (IH (n + 1) _ l1 q1 m1 st2 b ltac:(lia) T2 E2 W'). lia.
Qed.
Lemma round_robin before ops st0 outs0 st outs : Z.of_nat (length before) + Z.of_nat (length ops) <= U64_MAX ->
  i_run kindof (i_new FirstInFirstOut) before = Some (st0, outs0) -> i_run kindof st0 ops = Some (st, outs) ->
  Forall (fun w => 0 < w) (waiting s (Z.of_nat (length (queue_of (snd st0) s))) ops outs) -> from t outs <= from s outs + 1.
Proof.
  intros B E0 E W. destruct (run_ready FirstInFirstOut before 0 [] (nq_new FirstInFirstOut) [] ltac:(lia) (new_ready _)) as (q & m & out & l & E1 & RD & _).
  pose proof (eq_trans (eq_sym E0) E1) as EE. injection EE as -> ->. cbn [snd] in W.
  assert (D : queue_of m s <> []). { destruct (queue_of m s) eqn:Q; [|discriminate]. exfalso. destruct ops as [|[]]; inversion W as [|? ? W1 _]; cbn in W1; lia. }
  pose proof (turns ops (0 + Z.of_nat (length before)) 0 l q m st outs ltac:(lia) (start_turn _ l q m RD D) E W). lia.
Qed.
End Fair.
End Sending.
