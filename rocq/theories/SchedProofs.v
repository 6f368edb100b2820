(** Proofs about scheduling rounds. *)
From Verif Require Import Base SchedModel SchedSpec.

Lemma upd_split {A} (i : nat) (l : list A) (d : A) : (i < length l)%nat ->
  exists l1 l2, l = l1 ++ nth i l d :: l2 /\ length l1 = i /\ forall y, upd i y l = l1 ++ y :: l2.
Proof.
  revert i. induction l as [|x l IH]; intros i L; cbn in L; [lia|]. destruct i as [|i].
  - exists [], l. auto.
  - destruct (IH i ltac:(lia)) as (l1 & l2 & E & L1 & U). exists (x :: l1), l2. cbn. split; [now f_equal|].
    split; [now rewrite L1|]. intros y. now rewrite U.
Qed.
Lemma upd_length {A} (i : nat) (x : A) l : length (upd i x l) = length l.
Proof. revert i. induction l as [|y l IH]; intros [|i]; cbn; auto. Qed.
Lemma upd_same {A} (i : nat) (x d : A) l : (i < length l)%nat -> nth i (upd i x l) d = x.
Proof. revert i. induction l as [|y l IH]; intros [|i] L; cbn in *; try lia; auto. apply IH. lia. Qed.
Lemma upd_other {A} (i j : nat) (x d : A) l : i <> j -> nth j (upd i x l) d = nth j l d.
Proof. revert i j. induction l as [|y l IH]; intros [|i] [|j] N; cbn; auto; try lia. Qed.
Lemma nth_error_upd_same {A} (i : nat) (x : A) l : (i < length l)%nat -> nth_error (upd i x l) i = Some x.
Proof. revert i. induction l as [|y l IH]; intros [|i] L; cbn in *; try lia; auto. apply IH. lia. Qed.
Lemma nth_error_upd_other {A} (i j : nat) (x : A) l : i <> j -> nth_error (upd i x l) j = nth_error l j.
Proof. revert i j. induction l as [|y l IH]; intros [|i] [|j] N; cbn; auto; try lia. Qed.

Section S.
Variable H : Type.
Notation sched := (sched H).
Notation round := (round H).

Notation run1 := (run1 H).
Notation running := (running H).

Lemma concat_upd (qs : list (list H)) q y : (q < length qs)%nat ->
  exists R, Permutation (concat qs) (nth q qs [] ++ R) /\ Permutation (concat (upd q y qs)) (y ++ R).
Proof.
  intros L. destruct (upd_split q qs [] L) as (l1 & l2 & E & _ & U). exists (concat l1 ++ concat l2). split.
  - rewrite E at 1. rewrite concat_app. cbn. rewrite !app_assoc. apply Permutation_app_tail, Permutation_app_comm.
  - rewrite U, concat_app. cbn. rewrite !app_assoc. apply Permutation_app_tail, Permutation_app_comm.
Qed.
Lemma running_upd (ps : list (pc H)) i p p' : nth_error ps i = Some p ->
  exists R, Permutation (running ps) (run1 p ++ R) /\ Permutation (running (upd i p' ps)) (run1 p' ++ R).
Proof.
  intros E. assert (L : (i < length ps)%nat) by (apply nth_error_Some; congruence).
  destruct (upd_split i ps p L) as (l1 & l2 & E' & _ & U).
  rewrite (nth_error_nth _ _ _ E) in E'. exists (running l1 ++ running l2).
  unfold running in *. split.
  - rewrite E' at 1. rewrite flat_map_app. cbn. rewrite !app_assoc. apply Permutation_app_tail, Permutation_app_comm.
  - rewrite U, flat_map_app. cbn. rewrite !app_assoc. apply Permutation_app_tail, Permutation_app_comm.
Qed.

(** ** The invariant of a round *)
Record rinv (n cap : nat) (f : nat -> H -> H) (hs : list H) (r : round) : Prop := {
  r_from : length (from H r) = n;
  r_to : length (to H r) = n;
  r_pcs : length (pcs H r) = n;
  r_in : Permutation (inputs H (log H r) ++ running (pcs H r) ++ concat (from H r)) hs;
  r_out : Permutation (outputs H (log H r)) (concat (to H r));
  r_log : Forall (fun x => (fst (fst x) < n)%nat /\ snd x = f (fst (fst x)) (snd (fst x))) (log H r);
  r_seen : forall i k j, nth_error (pcs H r) i = Some (At H k) \/ (exists h, nth_error (pcs H r) i = Some (Running H k h)) ->
             (j < k)%nat -> (k <= n)%nat /\ nth ((i + j) mod n) (from H r) [] = [];
  r_lt : forall i k h, nth_error (pcs H r) i = Some (Running H k h) -> (k < n)%nat;
  r_le : forall i k, nth_error (pcs H r) i = Some (At H k) -> (k <= n)%nat;
  r_cap : (length hs <= cap)%nat
}.

Lemma inputs_app a b : inputs H (a ++ b) = inputs H a ++ inputs H b.
Proof. apply map_app. Qed.
Lemma outputs_app a b : outputs H (a ++ b) = outputs H a ++ outputs H b.
Proof. apply map_app. Qed.

Lemma to_short n cap f hs r i : rinv n cap f hs r ->
  (exists k h, nth_error (pcs H r) i = Some (Running H k h)) -> (length (nth i (to H r) []) < cap)%nat.
Proof.
  intros I (k & h & E). assert (L : (i < length (pcs H r))%nat) by (apply nth_error_Some; congruence).
  rewrite (r_pcs _ _ _ _ _ I), <- (r_to _ _ _ _ _ I) in L.
  destruct (concat_upd (to H r) i [] L) as (R & P & _).
  destruct (running_upd (pcs H r) i _ (At H 0) E) as (R' & P' & _). cbn in P'.
  apply Permutation_length in P, P'. pose proof (Permutation_length (r_out _ _ _ _ _ I)) as P1.
  pose proof (Permutation_length (r_in _ _ _ _ _ I)) as P2. pose proof (r_cap _ _ _ _ _ I) as C.
  unfold inputs, outputs in *. rewrite !app_length in *. rewrite !map_length in *. cbn [length] in P'. lia.
Qed.

Lemma tstep_inv n cap f hs i r : rinv n cap f hs r ->
  exists r', tstep H n cap f i r = Some r' /\ rinv n cap f hs r'.
Proof.
  intros I. unfold tstep. destruct (nth_error (pcs H r) i) as [[k|k h]|] eqn:E; [| |eauto].
  - assert (Li : (i < n)%nat) by (rewrite <- (r_pcs _ _ _ _ _ I); apply nth_error_Some; congruence).
    destruct (Nat.ltb_spec k n) as [L|L]; [|eauto].
    set (q := ((i + k) mod n)%nat).
    assert (Lq : (q < length (from H r))%nat) by (rewrite (r_from _ _ _ _ _ I); apply Nat.mod_upper_bound; lia).
    destruct (nth q (from H r) []) as [|h t] eqn:Q.
    + eexists. split; [reflexivity|].
      destruct (running_upd (pcs H r) i _ (At H (Datatypes.S k)) E) as (R & P & P').
      constructor; cbn [from to pcs log]; try apply I.
      * rewrite upd_length. apply I.
      * rewrite P'. cbn. etransitivity; [|apply I]. rewrite P. reflexivity.
      * intros i' k' j' Hi Lj. destruct (Nat.eq_dec i' i) as [->|N].
        -- rewrite nth_error_upd_same in Hi by (rewrite (r_pcs _ _ _ _ _ I); lia).
           destruct Hi as [[= <-]|(h & X)]; [|discriminate]. split; [lia|].
           destruct (Nat.eq_dec j' k) as [->|Nj]; [exact Q|]. apply (r_seen _ _ _ _ _ I i k j'); [now left|lia].
        -- rewrite nth_error_upd_other in Hi by congruence. apply (r_seen _ _ _ _ _ I i' k' j' Hi Lj).
      * intros i' k' h'. destruct (Nat.eq_dec i' i) as [->|N].
        -- rewrite nth_error_upd_same by (rewrite (r_pcs _ _ _ _ _ I); lia). discriminate.
        -- rewrite nth_error_upd_other by congruence. apply I.
      * intros i' k'. destruct (Nat.eq_dec i' i) as [->|N].
        -- rewrite nth_error_upd_same by (rewrite (r_pcs _ _ _ _ _ I); lia). intros [= <-]. lia.
        -- rewrite nth_error_upd_other by congruence. apply I.
    + eexists. split; [reflexivity|].
      destruct (running_upd (pcs H r) i _ (Running H k h) E) as (R & P & P').
      destruct (concat_upd (from H r) q t Lq) as (R2 & Q1 & Q2). rewrite Q in Q1.
      constructor; cbn [from to pcs log]; try apply I.
      * rewrite upd_length. apply I.
      * rewrite upd_length. apply I.
      * rewrite P', Q2. cbn. etransitivity; [|apply I]. rewrite P, Q1. cbn.
        apply Permutation_app_head. apply Permutation_middle.
      * intros i' k' j' Hi Lj.
        assert (X : (k' <= n)%nat /\ nth ((i' + j') mod n) (from H r) [] = []).
        { destruct (Nat.eq_dec i' i) as [->|N].
          - rewrite nth_error_upd_same in Hi by (rewrite (r_pcs _ _ _ _ _ I); lia).
            destruct Hi as [X|(h' & [= <- <-])]; [discriminate|]. apply (r_seen _ _ _ _ _ I i k j'); [now left|lia].
          - rewrite nth_error_upd_other in Hi by congruence. apply (r_seen _ _ _ _ _ I i' k' j' Hi Lj). }
        destruct X as [X1 X2]. split; [exact X1|].
        destruct (Nat.eq_dec q ((i' + j') mod n)) as [Eq|Nq].
        -- rewrite Eq in Q. rewrite Q in X2. discriminate.
        -- rewrite upd_other by exact Nq. exact X2.
      * intros i' k' h'. destruct (Nat.eq_dec i' i) as [->|N].
        -- rewrite nth_error_upd_same by (rewrite (r_pcs _ _ _ _ _ I); lia). intros [= <- <-]. exact L.
        -- rewrite nth_error_upd_other by congruence. apply I.
      * intros i' k'. destruct (Nat.eq_dec i' i) as [->|N].
        -- rewrite nth_error_upd_same by (rewrite (r_pcs _ _ _ _ _ I); lia). discriminate.
        -- rewrite nth_error_upd_other by congruence. apply I.
  - assert (Li : (i < n)%nat) by (rewrite <- (r_pcs _ _ _ _ _ I); apply nth_error_Some; congruence).
    pose proof (to_short n cap f hs r i I (ex_intro _ k (ex_intro _ h E))) as SH.
    unfold q_push. rewrite assert_true by (now apply Nat.ltb_lt). ob. eexists. split; [reflexivity|].
    destruct (running_upd (pcs H r) i _ (At H k) E) as (R & P & P'). cbn in P, P'.
    assert (Lt : (i < length (to H r))%nat) by (rewrite (r_to _ _ _ _ _ I); exact Li).
    destruct (concat_upd (to H r) i (nth i (to H r) [] ++ [f i h]) Lt) as (R2 & Q1 & Q2).
    constructor; cbn [from to pcs log]; try apply I.
    + rewrite upd_length. apply I.
    + rewrite upd_length. apply I.
    + rewrite inputs_app. cbn. rewrite P'. etransitivity; [|apply I]. rewrite P. cbn. rewrite <- !app_assoc. reflexivity.
    + rewrite outputs_app. cbn. rewrite Q2, (r_out _ _ _ _ _ I), Q1. rewrite <- !app_assoc.
      apply Permutation_app_head, Permutation_app_comm.
    + apply Forall_app. split; [apply I|]. constructor; [|constructor]. cbn. auto.
    + intros i' k' j' Hi Lj. destruct (Nat.eq_dec i' i) as [->|N].
      * rewrite nth_error_upd_same in Hi by (rewrite (r_pcs _ _ _ _ _ I); lia).
        destruct Hi as [[= <-]|(h' & X)]; [|discriminate]. apply (r_seen _ _ _ _ _ I i k j'); [right; eauto|lia].
      * rewrite nth_error_upd_other in Hi by congruence. apply (r_seen _ _ _ _ _ I i' k' j' Hi Lj).
    + intros i' k' h'. destruct (Nat.eq_dec i' i) as [->|N].
      * rewrite nth_error_upd_same by (rewrite (r_pcs _ _ _ _ _ I); lia). discriminate.
      * rewrite nth_error_upd_other by congruence. apply I.
    + intros i' k'. destruct (Nat.eq_dec i' i) as [->|N].
      * rewrite nth_error_upd_same by (rewrite (r_pcs _ _ _ _ _ I); lia). intros [= <-].
        apply (r_lt _ _ _ _ _ I) in E. lia.
      * rewrite nth_error_upd_other by congruence. apply I.
Qed.

Lemma tsteps_inv n cap f hs order : forall r, rinv n cap f hs r ->
  exists r', tsteps H n cap f order r = Some r' /\ rinv n cap f hs r'.
Proof.
  induction order as [|i order IH]; intros r I; cbn; [eauto|].
  destruct (tstep_inv n cap f hs i r I) as (r1 & E & I1). rewrite E. ob. now apply IH.
Qed.

(** When some thread has finished, every source queue is empty. *)
Lemma finished_empty n cap f hs r i : rinv n cap f hs r -> (0 < n)%nat ->
  nth_error (pcs H r) i = Some (At H n) -> Forall (fun q => q = []) (from H r).
Proof.
  intros I N E. assert (Li : (i < n)%nat) by (rewrite <- (r_pcs _ _ _ _ _ I); apply nth_error_Some; congruence).
  apply Forall_forall. intros q Iq. apply (In_nth _ _ []) in Iq as (m & Lm & Em). rewrite (r_from _ _ _ _ _ I) in Lm.
  set (j := ((m + n - i) mod n)%nat).
  assert (Lj : (j < n)%nat) by (apply Nat.mod_upper_bound; lia).
  destruct (r_seen _ _ _ _ _ I i n j (or_introl E) Lj) as [_ X].
  assert (Ej : ((i + j) mod n = m)%nat).
  { unfold j. rewrite Nat.add_mod_idemp_r by lia. replace (i + (m + n - i))%nat with (m + 1 * n)%nat by lia.
    rewrite Nat.mod_add by lia. apply Nat.mod_small. exact Lm. }
  rewrite Ej in X. congruence.
Qed.

Lemma finished_running n (ps : list (pc H)) : forallb (done H n) ps = true -> running ps = [].
Proof.
  induction ps as [|p ps IH]; cbn; [reflexivity|]. rewrite andb_true_iff. intros [D F].
  destruct p; [|discriminate]. cbn. now apply IH.
Qed.
Lemma concat_empty (qs : list (list H)) : Forall (fun q => q = []) qs -> concat qs = [].
Proof. induction 1 as [|q qs E F IH]; [reflexivity|]. cbn. now rewrite E, IH. Qed.
Lemma forallb_empty (qs : list (list H)) :
  forallb (fun q => match q with [] => true | _ => false end) qs = true <-> Forall (fun q => q = []) qs.
Proof.
  rewrite forallb_forall, Forall_forall. split; intros A q I; specialize (A q I); destruct q; congruence.
Qed.

Lemma round_done n cap f hs r : rinv n cap f hs r -> (0 < n)%nat -> finished H n r = true ->
  Forall (fun q => q = []) (from H r) /\ ran H f n hs (log H r) (concat (to H r)).
Proof.
  intros I N F. unfold finished in F.
  assert (X : exists p, nth_error (pcs H r) 0 = Some p).
  { destruct (nth_error (pcs H r) 0) eqn:E; [eauto|]. apply nth_error_None in E. rewrite (r_pcs _ _ _ _ _ I) in E. lia. }
  destruct X as (p & E).
  assert (D : done H n p = true) by (rewrite forallb_forall in F; apply F; eapply nth_error_In; eauto).
  destruct p as [k|]; [|discriminate]. apply Nat.leb_le in D. pose proof (r_le _ _ _ _ _ I _ _ E) as D'.
  assert (k = n) by lia. subst k.
  pose proof (finished_empty _ _ _ _ _ _ I N E) as EM. split; [exact EM|].
  pose proof (r_in _ _ _ _ _ I) as P. rewrite (finished_running _ _ F), (concat_empty _ EM) in P; cbn in P; rewrite app_nil_r in P.
  split; [exact P|]. split; [apply I|apply I].
Qed.

(** ** Between rounds *)
Record sinv (n : nat) (hs : list H) (s : sched) : Prop := {
  s_n : num_threads H s = n;
  s_len1 : length (thread_hosts H s) = n;
  s_len2 : length (thread_hosts_processed H s) = n;
  s_empty : Forall (fun q => q = []) (if hosts_need_swap H s then thread_hosts H s else thread_hosts_processed H s);
  s_hosts : Permutation (hosts_of H s) hs;
  s_cap : (length hs <= capacity H s)%nat
}.

Lemma scope_begin_ok n hs s : sinv n hs s ->
  exists s1, scope_begin H s = Some s1 /\ sinv n hs s1 /\ hosts_need_swap H s1 = false /\ capacity H s1 = capacity H s.
Proof.
  intros I. unfold scope_begin. destruct (hosts_need_swap H s) eqn:W; [|eauto].
  pose proof (s_empty _ _ _ I) as E. rewrite W in E. rewrite assert_true by (now apply forallb_empty).
  eexists. split; [reflexivity|]. split; [|auto]. constructor; cbn; try apply I; auto.
  etransitivity; [|apply I]. unfold hosts_of. cbn. apply Permutation_app_comm.
Qed.

Lemma running_start n : running (repeat (At H 0) n) = [].
Proof. induction n as [|n IH]; [reflexivity|]. cbn. exact IH. Qed.
Lemma nth_error_repeat {A} (x y : A) n i : nth_error (repeat x n) i = Some y -> y = x.
Proof. intros E. apply nth_error_In in E. eapply repeat_spec; eauto. Qed.

Lemma round_begin_ok n hs s f : sinv n hs s -> hosts_need_swap H s = false ->
  rinv n (capacity H s) f hs (round_begin H s).
Proof.
  intros I W. pose proof (s_empty _ _ _ I) as E. rewrite W in E.
  pose proof (s_hosts _ _ _ I) as P. unfold hosts_of in P. rewrite (concat_empty _ E), app_nil_r in P.
  constructor; unfold round_begin; cbn [from to pcs log inputs outputs map app]; try apply I.
  - rewrite repeat_length. apply I.
  - rewrite running_start. exact P.
  - rewrite (concat_empty _ E). constructor.
  - constructor.
  - intros i k j [X|(h & X)] L; apply nth_error_repeat in X; [|discriminate]. injection X as ->. lia.
  - intros i k h X. apply nth_error_repeat in X. discriminate.
  - intros i k X. apply nth_error_repeat in X. injection X as ->. lia.
Qed.

Lemma ran_length f n hs l hs' : ran H f n hs l hs' -> length hs' = length hs.
Proof.
  intros (A & B & _). apply Permutation_length in A, B. unfold inputs, outputs in *. rewrite map_length in *. lia.
Qed.

Lemma scope_ok n hs s t : (0 < n)%nat -> sinv n hs s ->
  exists x, scope H s t = Some x /\
    match x with
    | None => True
    | Some (s', l) =>
        match t with
        | RunHosts _ f _ => exists hs', ran H f n hs l hs' /\ sinv n hs' s'
        | _ => l = [] /\ sinv n hs s'
        end
    end.
Proof.
  intros N I. unfold scope. destruct (scope_begin_ok n hs s I) as (s1 & E & I1 & W1 & C1). rewrite E. ob.
  destruct t as [| |f order].
  { eexists. split; [reflexivity|]. cbn. split; [reflexivity|exact I1]. }
  { eexists. split; [reflexivity|]. cbn. split; [reflexivity|exact I1]. }
  pose proof (round_begin_ok n hs s1 f I1 W1) as RI. rewrite (s_n _ _ _ I1).
  destruct (tsteps_inv n (capacity H s1) f hs order _ RI) as (r & Er & RI'). rewrite Er. ob.
  destruct (finished H n r) eqn:F; [|eexists; split; [reflexivity|exact Logic.I]].
  eexists. split; [reflexivity|]. destruct (round_done _ _ _ _ _ RI' N F) as [EM RN].
  exists (concat (to H r)). split; [exact RN|]. constructor; cbn; try apply RI'; auto.
  - unfold hosts_of. cbn. now rewrite (concat_empty _ EM).
  - apply ran_length in RN. pose proof (s_cap _ _ _ I1). lia.
Qed.

Lemma perm_rounds n hs hs2 ts ls hs' : Permutation hs2 hs -> rounds H n hs ts ls hs' -> rounds H n hs2 ts ls hs'.
Proof.
  intros P R. revert hs2 P. induction R as [hs hs' P0|hs t ts ls hs' T R IH|hs f order l mid ts ls hs' RN R IH]; intros hs2 P.
  - constructor. etransitivity; eauto.
  - constructor; auto.
  - econstructor; [|exact R]. destruct RN as (A & B & C). split; [|auto]. etransitivity; [exact A|]. now symmetry.
Qed.

Lemma scopes_ok n : (0 < n)%nat -> forall ts hs s, sinv n hs s ->
  exists x, scopes H s ts = Some x /\
    match x with None => True | Some (s', ls) => rounds H n hs ts ls (hosts_of H s') end.
Proof.
  intros N. induction ts as [|t ts IH]; intros hs s I; cbn [scopes].
  - eexists. split; [reflexivity|]. constructor. symmetry. apply I.
  - destruct (scope_ok n hs s t N I) as (x & E & X). rewrite E. ob. destruct x as [[s1 l]|]; [|eexists; split; [reflexivity|exact Logic.I]].
    destruct t as [| |f order].
    + destruct X as [-> I1]. destruct (IH hs s1 I1) as (y & E2 & Y). rewrite E2. ob.
      destruct y as [[s2 ls]|]; eexists; (split; [reflexivity|]); [|exact Logic.I]. constructor; auto.
    + destruct X as [-> I1]. destruct (IH hs s1 I1) as (y & E2 & Y). rewrite E2. ob.
      destruct y as [[s2 ls]|]; eexists; (split; [reflexivity|]); [|exact Logic.I]. constructor; auto.
    + destruct X as (hs' & RN & I1). destruct (IH hs' s1 I1) as (y & E2 & Y). rewrite E2. ob.
      destruct y as [[s2 ls]|]; eexists; (split; [reflexivity|]); [|exact Logic.I]. econstructor; eauto.
Qed.

(** ** The initial assignment *)
Lemma assign_ok n cap hosts : forall qs i, length qs = n -> (i < n)%nat ->
  (length (concat qs) + length hosts <= cap)%nat ->
  exists qs', assign H n cap qs i hosts = Some qs' /\ length qs' = n /\
    Permutation (concat qs') (concat qs ++ hosts).
Proof.
  induction hosts as [|h r IH]; intros qs i L Li C; cbn [assign].
  - exists qs. rewrite app_nil_r. auto.
  - destruct (concat_upd qs i (nth i qs [] ++ [h]) ltac:(lia)) as (R & P & P').
    assert (Q : (length (nth i qs []) < cap)%nat) by (apply Permutation_length in P; rewrite app_length in P; cbn in C; lia).
    unfold q_push. rewrite assert_true by (now apply Nat.ltb_lt). ob.
    destruct (IH (upd i (nth i qs [] ++ [h]) qs) (if Nat.eqb (Datatypes.S i) n then 0 else Datatypes.S i)%nat) as (qs' & E & L' & P2).
    + rewrite upd_length. exact L.
    + destruct (Nat.eqb_spec (Datatypes.S i) n); lia.
    + apply Permutation_length in P, P'. rewrite !app_length in *. cbn [length] in *. lia.
    + exists qs'. split; [exact E|]. split; [exact L'|]. rewrite P2, P', P. rewrite <- !app_assoc.
      apply Permutation_app_head. cbn. apply Permutation_middle.
Qed.

Lemma repeat_empty n : Forall (fun q : list H => q = []) (repeat [] n).
Proof. apply Forall_forall. intros q I. eapply repeat_spec; eauto. Qed.

Lemma sched_new_ok n hosts : (0 < n)%nat -> hosts <> [] ->
  exists s, sched_new H n hosts = Some s /\ sinv n hosts s.
Proof.
  intros N HN. unfold sched_new.
  assert (LH : (0 < length hosts)%nat) by (destruct hosts; [congruence|cbn; lia]).
  rewrite assert_true by (destruct (Nat.eqb_spec n 0), (Nat.eqb_spec (length hosts) 0); cbn; lia).
  destruct (Nat.eqb_spec n 0); [lia|].
  destruct (assign_ok n (length hosts) hosts (repeat [] n) 0) as (qs & E & L & P).
  { apply repeat_length. } { exact N. } { rewrite (concat_empty _ (repeat_empty n)). cbn. lia. }
  rewrite E. ob. eexists. split; [reflexivity|]. constructor; cbn; auto.
  - apply repeat_length.
  - apply repeat_empty.
  - unfold hosts_of. cbn. rewrite (concat_empty _ (repeat_empty n)), app_nil_r.
    rewrite P, (concat_empty _ (repeat_empty n)). reflexivity.
Qed.

(** ** Termination of a round *)
Definition pcost (n : nat) (p : pc H) : nat := match p with At _ k => n - k | Running _ k _ => (n - k) + 1 end.
Definition cost (n : nat) (r : round) : nat :=
  (list_sum (map (pcost n) (pcs H r)) + 2 * length (concat (from H r)))%nat.

Lemma list_sum_upd {A} (g : A -> nat) i (x y : A) l : nth_error l i = Some x ->
  (list_sum (map g (upd i y l)) + g x = list_sum (map g l) + g y)%nat.
Proof.
  assert (LS : forall a l, list_sum (a :: l) = (a + list_sum l)%nat) by reflexivity.
  revert i. induction l as [|z l IH]; intros [|i] E; cbn [nth_error upd map] in *; try discriminate.
  - injection E as ->. rewrite !LS. lia.
  - apply IH in E. rewrite !LS. lia.
Qed.

Lemma tstep_cost n cap f hs i r r' : rinv n cap f hs r -> tstep H n cap f i r = Some r' ->
  (cost n r' <= cost n r)%nat /\
  (forall p, nth_error (pcs H r) i = Some p -> done H n p = false -> (cost n r' < cost n r)%nat).
Proof.
  intros I. unfold tstep. destruct (nth_error (pcs H r) i) as [[k|k h]|] eqn:E.
  - destruct (Nat.ltb_spec k n) as [L|L].
    + set (q := ((i + k) mod n)%nat).
      assert (Lq : (q < length (from H r))%nat) by (rewrite (r_from _ _ _ _ _ I); apply Nat.mod_upper_bound; lia).
      destruct (nth q (from H r) []) as [|h t] eqn:Q; intros [= <-]; unfold cost; cbn [pcs from].
      * pose proof (list_sum_upd (pcost n) i _ (At H (Datatypes.S k)) _ E) as X. cbn in X. split; [lia|]. intros; lia.
      * pose proof (list_sum_upd (pcost n) i _ (Running H k h) _ E) as X. cbn in X.
        destruct (concat_upd (from H r) q t Lq) as (R2 & Q1 & Q2). rewrite Q in Q1.
        apply Permutation_length in Q1, Q2. rewrite !app_length in *. cbn [length] in *. split; [lia|]. intros; lia.
    + intros [= <-]. split; [lia|]. intros p [= <-] D. cbn in D. destruct (Nat.leb_spec n k); [discriminate|lia].
  - unfold q_push, assert_then. destruct (Nat.ltb _ _); [|discriminate]. ob. intros [= <-]. unfold cost. cbn [pcs from].
    pose proof (list_sum_upd (pcost n) i _ (At H k) _ E) as X. cbn in X. split; [lia|]. intros; lia.
  - intros [= <-]. split; [lia|]. intros p. discriminate.
Qed.

Lemma tsteps_app n cap f a b r : tsteps H n cap f (a ++ b) r = do r1 <- tsteps H n cap f a r; tsteps H n cap f b r1.
Proof. revert r. induction a as [|i a IH]; intros r; cbn; [reflexivity|]. destruct (tstep _ _ _ _ _ _); [ob; apply IH|reflexivity]. Qed.

Lemma tsteps_cost n cap f hs order : forall r r', rinv n cap f hs r -> tsteps H n cap f order r = Some r' ->
  (cost n r' <= cost n r)%nat /\
  (finished H n r = true -> finished H n r' = true) /\
  (finished H n r = false -> (forall i, (i < n)%nat -> In i order) -> (cost n r' < cost n r)%nat).
Proof.
  (* a finished thread stays finished, so some unfinished thread of [r] is still in the way *)
  assert (ST : forall i r r', rinv n cap f hs r -> tstep H n cap f i r = Some r' ->
     forall j p, j <> i -> nth_error (pcs H r) j = Some p -> nth_error (pcs H r') j = Some p).
  { intros i r r' I E j p N Ep. revert E. unfold tstep.
    destruct (nth_error (pcs H r) i) as [[k|k h]|]; [| |intros [= <-]; exact Ep].
    - destruct (Nat.ltb k n); [|intros [= <-]; exact Ep].
      destruct (nth _ (from H r) []); intros [= <-]; cbn; rewrite nth_error_upd_other by congruence; exact Ep.
    - unfold q_push, assert_then. destruct (Nat.ltb _ _); [|discriminate]. ob. intros [= <-]. cbn.
      rewrite nth_error_upd_other by congruence; exact Ep. }
  assert (DN : forall i r r' p, tstep H n cap f i r = Some r' -> nth_error (pcs H r) i = Some p -> done H n p = true -> r' = r).
  { intros i r r' p E Ep D. revert E. unfold tstep. rewrite Ep. destruct p as [k|]; [|discriminate]. cbn in D.
    apply Nat.leb_le in D. destruct (Nat.ltb_spec k n); [lia|]. now intros [= <-]. }
  assert (KEY : forall j p, done H n p = false -> forall order r r', rinv n cap f hs r ->
     nth_error (pcs H r) j = Some p -> In j order -> tsteps H n cap f order r = Some r' -> (cost n r' < cost n r)%nat).
  { intros j p D. induction order0 as [|i o IH]; intros r r' I Ep Ij; [destruct Ij|]. cbn.
    destruct (tstep_inv n cap f hs i r I) as (r1 & E1 & I1). rewrite E1. ob. intros E2.
    destruct (tstep_cost _ _ _ _ _ _ _ I E1) as [C1 C2].
    assert (C3 : forall o r r', rinv n cap f hs r -> tsteps H n cap f o r = Some r' -> (cost n r' <= cost n r)%nat).
    { induction o0 as [|a o0 IHo]; intros x x' Ix; cbn; [intros [= <-]; lia|].
      destruct (tstep_inv n cap f hs a x Ix) as (x1 & X1 & Ix1). rewrite X1. ob. intros X2.
      apply IHo in X2; [|exact Ix1]. destruct (tstep_cost _ _ _ _ _ _ _ Ix X1). lia. }
    destruct (Nat.eq_dec i j) as [->|N].
    - specialize (C2 p Ep D). apply C3 in E2; [lia|exact I1].
    - destruct Ij as [X|Ij]; [congruence|]. apply (IH r1 r' I1) in E2; [lia| |exact Ij].
      apply (ST i r r1 I E1); congruence. }
  induction order as [|i order IH]; intros r r' I; cbn.
  - intros [= <-]. split; [lia|]. split; [auto|]. intros F A. exfalso.
    unfold finished in F. destruct n as [|n']; [|destruct (A 0%nat ltac:(lia))].
    pose proof (r_pcs _ _ _ _ _ I) as L. destruct (pcs H r); [discriminate|discriminate].
  - destruct (tstep_inv n cap f hs i r I) as (r1 & E1 & I1). rewrite E1. ob. intros E2.
    destruct (tstep_cost _ _ _ _ _ _ _ I E1) as [C1 C2]. destruct (IH r1 r' I1 E2) as (A1 & A2 & A3).
    split; [lia|]. split.
    + intros F. apply A2. destruct (nth_error (pcs H r) i) as [p|] eqn:Ep.
      * assert (D : done H n p = true) by (unfold finished in F; rewrite forallb_forall in F; apply F; eapply nth_error_In; eauto).
        now rewrite (DN i r r1 p E1 Ep D).
      * unfold tstep in E1. rewrite Ep in E1. now injection E1 as <-.
    + intros F A. unfold finished in F.
      assert (X : exists p, In p (pcs H r) /\ done H n p = false).
      { clear - F. induction (pcs H r) as [|p ps IHp]; [discriminate|]. cbn in F. destruct (done H n p) eqn:D.
        - destruct (IHp F) as (p' & Ip & Dp). exists p'. split; [now right|exact Dp].
        - exists p. split; [now left|exact D]. }
      destruct X as (p & Ip & D). apply In_nth_error in Ip as (j & Ep).
      assert (Lj : (j < n)%nat) by (rewrite <- (r_pcs _ _ _ _ _ I); apply nth_error_Some; congruence).
      apply (KEY j p D (i :: order) r r' I Ep (A j Lj)). cbn. rewrite E1. ob. exact E2.
Qed.

(** A schedule made of enough blocks, each of which mentions every thread, finishes the round. *)
Lemma blocks_finish n cap f hs blocks : Forall (fun b => forall i, (i < n)%nat -> In i b) blocks ->
  forall r, rinv n cap f hs r -> (cost n r <= length blocks)%nat ->
  exists r', tsteps H n cap f (concat blocks) r = Some r' /\ (finished H n r' = true \/ cost n r' = 0%nat) /\ rinv n cap f hs r'.
Proof.
  induction 1 as [|b blocks B F IH]; intros r I C; cbn [concat length] in *.
  - exists r. split; [reflexivity|]. split; [right; lia|exact I].
  - rewrite tsteps_app. destruct (tsteps_inv n cap f hs b r I) as (r1 & E1 & I1). rewrite E1. ob.
    destruct (tsteps_cost n cap f hs b r r1 I E1) as (A1 & A2 & A3).
    destruct (finished H n r) eqn:Fr.
    + specialize (A2 eq_refl).
      destruct (tsteps_inv n cap f hs (concat blocks) r1 I1) as (r2 & E2 & I2). exists r2. split; [exact E2|].
      destruct (tsteps_cost n cap f hs _ r1 r2 I1 E2) as (_ & B2 & _). auto.
    + specialize (A3 eq_refl B). apply IH; [exact I1|lia].
Qed.

Lemma cost_zero n cap f hs r : rinv n cap f hs r -> cost n r = 0%nat -> finished H n r = true.
Proof.
  intros I C. unfold cost in C. unfold finished. apply forallb_forall. intros p Ip.
  assert (X : pcost n p = 0%nat).
  { assert (Y : (list_sum (map (pcost n) (pcs H r)) = 0)%nat) by lia. revert Y. clear - Ip.
    assert (LS : forall a l, list_sum (a :: l) = (a + list_sum l)%nat) by reflexivity.
    induction (pcs H r) as [|q ps IH]; [destruct Ip|]. cbn [map]. rewrite LS. intros Y. destruct Ip as [->|Ip]; [lia|]. apply IH; [exact Ip|lia]. }
  destruct p as [k|k h]; cbn in *; [apply Nat.leb_le|]; lia.
Qed.

Lemma start_cost n hs s f : sinv n hs s -> hosts_need_swap H s = false -> rinv n (capacity H s) f hs (round_begin H s) ->
  (cost n (round_begin H s) <= n * n + 2 * length hs)%nat.
Proof.
  intros I W RI. pose proof (Permutation_length (r_in _ _ _ _ _ RI)) as P.
  unfold round_begin in *. cbn [from to pcs log] in *. rewrite running_start in P. cbn in P.
  unfold cost. cbn [from pcs]. rewrite (s_n _ _ _ I).
  assert (X : forall m, (list_sum (map (pcost n) (repeat (At H 0) m)) = m * n)%nat).
  { induction m as [|m IH]; [reflexivity|]. cbn [repeat map].
    assert (LS : forall a l, list_sum (a :: l) = (a + list_sum l)%nat) by reflexivity. rewrite LS, IH. cbn. lia. }
  rewrite X. lia.
Qed.

Lemma scope_terminates n hs s f blocks : sinv n hs s ->
  Forall (fun b => forall i, (i < n)%nat -> In i b) blocks -> (n * n + 2 * length hs <= length blocks)%nat ->
  exists y, scope H s (RunHosts H f (concat blocks)) = Some (Some y).
Proof.
  intros I B L. unfold scope. destruct (scope_begin_ok n hs s I) as (s1 & E & I1 & W1 & C1). rewrite E. ob.
  pose proof (round_begin_ok n hs s1 f I1 W1) as RI. rewrite (s_n _ _ _ I1).
  destruct (blocks_finish n (capacity H s1) f hs blocks B _ RI) as (r & Er & D & RI').
  { pose proof (start_cost n hs s1 f I1 W1 RI). lia. }
  rewrite Er. ob. replace (finished H n r) with true; [eauto|]. symmetry.
  destruct D as [D|D]; [exact D|]. eapply cost_zero; eauto.
Qed.

(** Reachable schedulers satisfy the invariant. *)
Lemma scopes_inv n : (0 < n)%nat -> forall ts hs s s' ls, sinv n hs s -> scopes H s ts = Some (Some (s', ls)) ->
  exists hs', sinv n hs' s' /\ length hs' = length hs.
Proof.
  intros N. induction ts as [|t ts IH]; intros hs s s' ls I; cbn [scopes].
  - intros [= <- <-]. eauto.
  - destruct (scope_ok n hs s t N I) as (x & E & X). rewrite E. ob. destruct x as [[s1 l]|]; [|discriminate].
    destruct (scopes H s1 ts) as [[[s2 ls2]|]|] eqn:E2; try discriminate. ob. intros [= <- <-].
    destruct t as [| |f order].
    + destruct X as [_ I1]. eapply IH; eauto.
    + destruct X as [_ I1]. eapply IH; eauto.
    + destruct X as (hs' & RN & I1). destruct (IH hs' s1 s2 ls2 I1 E2) as (hs2 & I2 & L2). exists hs2. split; [exact I2|].
      apply ran_length in RN. lia.
Qed.

(** Ownership inside a round, at every moment. *)
Lemma ownership n hs s f order : (0 < n)%nat -> sinv n hs s -> exists s1 r,
  scope_begin H s = Some s1 /\ tsteps H n (capacity H s1) f order (round_begin H s1) = Some r /\
  Permutation (inputs H (log H r) ++ running (pcs H r) ++ concat (from H r)) hs /\
  Permutation (outputs H (log H r)) (concat (to H r)).
Proof.
  intros N I. destruct (scope_begin_ok n hs s I) as (s1 & E & I1 & W1 & C1).
  pose proof (round_begin_ok n hs s1 f I1 W1) as RI.
  destruct (tsteps_inv n (capacity H s1) f hs order _ RI) as (r & Er & RI').
  exists s1, r. split; [exact E|]. split; [exact Er|]. split; apply RI'.
Qed.

(** ** Thread per host *)
Lemma tph_run_ok f i st h : nth_error st i = Some (Some h) ->
  tph_run H f i st = Some (upd i (Some (f i h)) st, [(i, h, f i h)]).
Proof. intros E. unfold tph_run. rewrite E. ob. reflexivity. Qed.

Lemma upd_map_f (f : nat -> H -> H) (hosts : list H) : forall order st,
  NoDup order -> (forall i, In i order -> exists h, nth_error hosts i = Some h /\ nth_error st i = Some (Some h)) ->
  exists st' l, tph_round H f order st = Some (st', l) /\ threads H l = order /\
    length st' = length st /\
    (forall i, ~ In i order -> nth_error st' i = nth_error st i) /\
    (forall i h, In i order -> nth_error hosts i = Some h -> nth_error st' i = Some (Some (f i h))) /\
    Forall (fun x => nth_error hosts (fst (fst x)) = Some (snd (fst x)) /\ snd x = f (fst (fst x)) (snd (fst x))) l.
Proof.
  induction order as [|i order IH]; intros st ND A; cbn [tph_round].
  - exists st, []. repeat split; auto. intros i h [].
  - inversion ND as [|? ? NI ND']; subst. destruct (A i (or_introl eq_refl)) as (h & Eh & Es).
    rewrite (tph_run_ok f i st h Es). ob. cbn [fst snd].
    assert (Li : (i < length st)%nat) by (apply nth_error_Some; congruence).
    destruct (IH (upd i (Some (f i h)) st) ND') as (st' & l & E & T & L & O & R & F).
    { intros j J. destruct (A j (or_intror J)) as (hj & Ej & Sj). exists hj. split; [exact Ej|].
      rewrite nth_error_upd_other; [exact Sj|]. intros ->. contradiction. }
    rewrite E. ob. cbn [fst snd]. exists st', ((i, h, f i h) :: l).
    split; [reflexivity|]. split; [cbn; now f_equal|]. split; [rewrite L; apply upd_length|]. split; [|split].
    + intros j J. rewrite O by (intros X; apply J; now right). apply nth_error_upd_other. intros ->. apply J. now left.
    + intros j hj [<-|J] Ej.
      * rewrite O by exact NI. rewrite nth_error_upd_same by exact Li. congruence.
      * now apply R.
    + constructor; auto.
Qed.

Lemma tph_round_ok f hosts order : Permutation order (seq 0 (length hosts)) ->
  exists st' l, tph_round H f order (tph_new H hosts) = Some (st', l) /\
    threads H l = order /\
    Forall (fun x => nth_error hosts (fst (fst x)) = Some (snd (fst x)) /\ snd x = f (fst (fst x)) (snd (fst x))) l /\
    st' = tph_new H (map (fun p => f (fst p) (snd p)) (combine (seq 0 (length hosts)) hosts)).
Proof.
  intros P. assert (ND : NoDup order) by (eapply Permutation_NoDup; [symmetry; exact P|apply seq_NoDup]).
  assert (IN : forall i, In i order <-> (i < length hosts)%nat).
  { intros i. split; intros X.
    - apply (Permutation_in _ P) in X. apply in_seq in X. lia.
    - apply (Permutation_in _ (Permutation_sym P)). apply in_seq. lia. }
  destruct (upd_map_f f hosts order (tph_new H hosts) ND) as (st' & l & E & T & L & O & R & F).
  { intros i X. apply IN in X. destruct (nth_error hosts i) as [h|] eqn:Eh; [|apply nth_error_None in Eh; lia].
    exists h. split; [reflexivity|]. unfold tph_new. now apply map_nth_error. }
  exists st', l. repeat split; auto.
  assert (CL : length (combine (seq 0 (length hosts)) hosts) = length hosts) by (rewrite combine_length, seq_length; lia).
  unfold tph_new in *. rewrite map_length in L.
  apply nth_ext with (d := None) (d' := None).
  - rewrite !map_length. lia.
  - intros i Li. rewrite L in Li. destruct (nth_error hosts i) as [h|] eqn:Eh; [|apply nth_error_None in Eh; lia].
    rewrite (nth_error_nth _ _ None (R i h (proj2 (IN i) Li) Eh)).
    rewrite map_map.
    assert (X : nth_error (combine (seq 0 (length hosts)) hosts) i = Some (i, h)).
    { clear - Eh. assert (G : forall k, nth_error (combine (seq k (length hosts)) hosts) i = Some ((k + i)%nat, h)).
      { revert i Eh. induction hosts as [|x hosts IH]; intros [|i] Eh k; cbn in *; try discriminate.
        - injection Eh as ->. f_equal. f_equal. lia.
        - rewrite (IH i Eh (Datatypes.S k)). f_equal. f_equal. lia. }
      apply (G 0%nat). }
    symmetry. apply nth_error_nth. exact (map_nth_error (fun x => Some (f (fst x) (snd x))) i _ X).
Qed.
End S.
