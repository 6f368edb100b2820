(** Proofs about the pipe model. *)
From Verif Require Import Base ByteQueueModel ByteQueueSpec ByteQueueProofs PipeModel PipeSpec DnsProofs.

Section Proofs.
Context {B : Type}.
Implicit Types (b : sbuf B) (wd : world B) (ps : list pipe) (p : pipe).

(** * Lists of pipes *)
Lemma nth_set_pipe l : forall i j p, (i < length l)%nat ->
  nth_error (set_pipe l i p) j = if Nat.eqb i j then Some p else nth_error l j.
Proof.
  induction l as [|x l IH]; intros i j p H; cbn in H; [lia|].
  destruct i as [|i], j as [|j]; cbn; try reflexivity. apply IH. lia.
Qed.
Lemma len_set_pipe l : forall i p, length (set_pipe l i p) = length l.
Proof. induction l as [|x l IH]; intros [|i] p; cbn; auto. Qed.

Definition count (f : pipe -> bool) ps : Z := Z.of_nat (length (filter f ps)).
Lemma count_set f l : forall i p q, nth_error l i = Some p ->
  count f (set_pipe l i q) = count f l - (if f p then 1 else 0) + (if f q then 1 else 0).
Proof.
  unfold count. induction l as [|x l IH]; intros [|i] p q E; cbn in E; try discriminate.
  - inversion E; subst. cbn. destruct (f p), (f q); cbn [length]; lia.
  - specialize (IH _ _ q E). cbn. destruct (f x); cbn [length]; lia.
Qed.
Lemma count_snoc f l p : count f (l ++ [p]) = count f l + (if f p then 1 else 0).
Proof. unfold count. rewrite filter_app, app_length. cbn. destruct (f p); cbn; lia. Qed.
Lemma count_zero f l : count f l = 0 <-> forall i p, nth_error l i = Some p -> f p = false.
Proof.
  unfold count. induction l as [|x l IH]; cbn.
  - split; [intros _ [|i] p E; discriminate|reflexivity].
  - destruct (f x) eqn:F; cbn [length].
    + split; [lia|]. intros H. specialize (H O x eq_refl). congruence.
    + rewrite IH. split; [intros H [|i] p E; cbn in E; [congruence|eauto]|intros H i p E; exact (H (S i) p E)].
Qed.
Lemma count_ex f l : count f l <> 0 -> exists i p, nth_error l i = Some p /\ f p = true.
Proof.
  unfold count. induction l as [|y l IH]; cbn; [lia|]. destruct (f y) eqn:Y.
  - intros _. exists O, y. auto.
  - intros Hc. destruct (IH Hc) as (j & q & Hj & Hq). exists (S j), q. auto.
Qed.
Lemma count_le f l : 0 <= count f l <= Z.of_nat (length l).
Proof. unfold count. split; [lia|]. induction l as [|x l IH]; cbn; [lia|]. destruct (f x); cbn [length]; lia. Qed.

(** * Callbacks *)
Definition core p := (p_read p, p_write p, p_direct p, p_wmode p, p_buffer p, p_reader_handle p, p_writer_handle p,
                      p_active p, p_closed p).
Lemma align_core p s : core (align_state p s) = core p.
Proof. unfold align_state. destruct (p_closed p) eqn:C; [reflexivity|]. unfold core; cbn. now rewrite C. Qed.
Lemma align_align p s t : align_state (align_state p s) t = align_state p t.
Proof.
  destruct p as [r w d m bu rh wh re wr ac cl]. unfold align_state. cbn [p_closed]. destruct cl; cbn; [reflexivity|].
  destruct r, w; reflexivity.
Qed.
Lemma run_msg_nth ps m i p : nth_error ps i = Some p ->
  exists p', nth_error (run_msg ps m) i = Some p' /\ (p' = p \/ exists s, p' = align_state p s).
Proof.
  intros E. destruct m as [[[j s] ch] g]. cbn. destruct (nth_error ps j) as [q|] eqn:Ej; [|eauto].
  destruct (monitored q ch || g); [|eauto].
  rewrite nth_set_pipe by (apply nth_error_Some; congruence). destruct (Nat.eqb_spec j i) as [->|N]; [|eauto].
  assert (q = p) by congruence; subst. eauto.
Qed.
Lemma run_msg_len ps m : length (run_msg ps m) = length ps.
Proof.
  destruct m as [[[j s] ch] g]. cbn. destruct (nth_error ps j); [|reflexivity].
  destruct (monitored p ch || g); [apply len_set_pipe|reflexivity].
Qed.
Lemma run_queue_len ms : forall ps, length (run_queue ps ms) = length ps.
Proof. induction ms as [|m ms IH]; intros ps; cbn; [reflexivity|]. unfold run_queue in IH. rewrite IH. apply run_msg_len. Qed.
Lemma run_queue_nth ms : forall ps i p, nth_error ps i = Some p ->
  exists p', nth_error (run_queue ps ms) i = Some p' /\ (p' = p \/ exists s, p' = align_state p s).
Proof.
  induction ms as [|m ms IH]; intros ps i p E; cbn; [eauto|].
  destruct (run_msg_nth ps m i p E) as (p1 & E1 & H1).
  destruct (IH _ _ _ E1) as (p2 & E2 & H2). exists p2. split; [exact E2|].
  destruct H1 as [->|(s1 & ->)]; [exact H2|]. right.
  destruct H2 as [->|(s2 & ->)]; [eauto|]. exists s2. apply align_align.
Qed.
Lemma run_queue_back ms ps i p' : nth_error (run_queue ps ms) i = Some p' ->
  exists p, nth_error ps i = Some p /\ (p' = p \/ exists s, p' = align_state p s).
Proof.
  intros E. destruct (nth_error ps i) as [p|] eqn:E0.
  - destruct (run_queue_nth ms ps i p E0) as (p1 & E1 & H). assert (p1 = p') by congruence; subst. eauto.
  - apply nth_error_None in E0. assert (i < length (run_queue ps ms))%nat by (apply nth_error_Some; congruence).
    rewrite run_queue_len in H. lia.
Qed.
Lemma run_queue_other ms i : (forall m : msg, In m ms -> fst (fst (fst m)) <> i) -> forall ps, nth_error (run_queue ps ms) i = nth_error ps i.
Proof.
  induction ms as [|m ms IH]; intros H ps; cbn; [reflexivity|]. unfold run_queue in IH. rewrite IH by (intros; apply H; now right).
  specialize (H m (or_introl eq_refl)). destruct m as [[[j s] ch] g]. cbn in *. destruct (nth_error ps j) as [q|] eqn:Ej; [|reflexivity].
  destruct (monitored q ch || g); [|reflexivity]. rewrite nth_set_pipe by (apply nth_error_Some; congruence).
  destruct (Nat.eqb_spec j i); [congruence|reflexivity].
Qed.
Lemma run_queue_app ps a c : run_queue ps (a ++ c) = run_queue (run_queue ps a) c.
Proof. unfold run_queue. apply fold_left_app. Qed.
Lemma core_proj p p' : core p' = core p ->
  p_read p' = p_read p /\ p_write p' = p_write p /\ p_direct p' = p_direct p /\ p_wmode p' = p_wmode p /\
  p_buffer p' = p_buffer p /\ p_reader_handle p' = p_reader_handle p /\ p_writer_handle p' = p_writer_handle p /\
  p_active p' = p_active p /\ p_closed p' = p_closed p.
Proof. unfold core. intros E. injection E as E1 E2 E3 E4 E5 E6 E7 E8 E9. tauto. Qed.
Lemma core_run p p' : (p' = p \/ exists s, p' = align_state p s) -> core p' = core p.
Proof. intros [->|(s & ->)]; [reflexivity|apply align_core]. Qed.

Definition isr p := p_read p && negb (p_closed p).
Definition isw p := p_write p && negb (p_closed p).
Lemma count_run f ms : (forall p p', core p' = core p -> f p' = f p) -> forall ps, count f (run_queue ps ms) = count f ps.
Proof.
  intros F. induction ms as [|m ms IH]; intros ps; cbn; [reflexivity|]. unfold run_queue in IH. rewrite IH.
  destruct m as [[[j s] ch] g]. cbn. destruct (nth_error ps j) as [q|] eqn:Ej; [|reflexivity].
  destruct (monitored q ch || g); [|reflexivity]. rewrite (count_set f ps j q _ Ej).
  rewrite (F q (align_state q s) (align_core q s)). lia.
Qed.
Lemma isr_core p p' : core p' = core p -> isr p' = isr p.
Proof. intros E. apply core_proj in E. unfold isr. destruct E as (-> & _ & _ & _ & _ & _ & _ & _ & ->). reflexivity. Qed.
Lemma isw_core p p' : core p' = core p -> isw p' = isw p.
Proof. intros E. apply core_proj in E. unfold isw. destruct E as (_ & -> & _ & _ & _ & _ & _ & _ & ->). reflexivity. Qed.

(** * Alignment *)
Definition aligned p (s : bstate) : Prop := align_state p s = p.
Definition aligned_all (ls : list nat) ps s : Prop := forall i p, In i ls -> nth_error ps i = Some p -> aligned p s.
Lemma aligned_same p s t : aligned p s -> monitored p (bs_xor t s) = false -> aligned p t.
Proof.
  unfold aligned, align_state. destruct (p_closed p); [auto|]. intros A M.
  destruct p as [r w d m bu rh wh re wr ac cl], s as [a1 a2 a3 a4], t as [b1 b2 b3 b4]. unfold monitored in M. cbn in *.
  inversion A as [[H1 H2]]. f_equal.
  - destruct r; [|reflexivity]. destruct a1, a4, b1, b4; cbn in *; try discriminate; reflexivity.
  - destruct w; [|reflexivity]. destruct a2, a3, b2, b3, r; cbn in *; try discriminate; try reflexivity;
      repeat rewrite ?orb_true_r, ?orb_false_r in M; try discriminate.
Qed.
Lemma aligned_align p s : aligned (align_state p s) s.
Proof. unfold aligned. apply align_align. Qed.

Lemma run_map ls s ch g : forall ps, (forall i p, In i ls -> nth_error ps i = Some p -> aligned p s \/ monitored p ch || g = true) ->
  aligned_all ls (run_queue ps (map (fun i => (i, s, ch, g)) ls)) s.
Proof.
  (* generalised: those not in the rest are aligned already *)
  assert (G : forall rest all ps, (forall i p, In i all -> nth_error ps i = Some p ->
      aligned p s \/ (In i rest /\ monitored p ch || g = true)) ->
      aligned_all all (run_queue ps (map (fun i => (i, s, ch, g)) rest)) s).
  { induction rest as [|j rest IH]; intros all ps H; cbn.
    - intros i p Hi E. destruct (H i p Hi E) as [A|[[] _]]. exact A.
    - apply IH. intros i p Hi E. destruct (nth_error ps j) as [q|] eqn:Ej.
      + destruct (monitored q ch || g) eqn:M.
        * rewrite nth_set_pipe in E by (apply nth_error_Some; congruence).
          destruct (Nat.eqb_spec j i) as [->|N]; [inversion E; subst; left; apply aligned_align|].
          destruct (H i p Hi E) as [A|[[->|Ir] M']]; [auto|congruence|auto].
        * destruct (H i p Hi E) as [A|[[->|Ir] M']]; [auto|congruence|auto].
      + destruct (H i p Hi E) as [A|[[->|Ir] M']]; [auto|congruence|auto]. }
  intros ps H. apply G. intros i p Hi E. destruct (H i p Hi E) as [A|M]; auto.
Qed.

(** What a refresh computes. *)
Definition fresh b : bstate :=
  mkBS (has_data b) (Nat.ltb 0 (sb_max b - num_bytes (sb_queue b))) (sb_readers b =? 0) (sb_writers b =? 0).
Definition with_state b s := mkSB (sb_queue b) (sb_max b) s (sb_readers b) (sb_writers b) (sb_listeners b).
Definition target (m : msg) : nat := fst (fst (fst m)).
Lemma refresh_ok b g : (num_bytes (sb_queue b) <= sb_max b)%nat ->
  exists ms, refresh_state b g = Some (with_state b (fresh b), ms) /\
    (forall ps, aligned_all (sb_listeners b) ps (sb_state b) -> aligned_all (sb_listeners b) (run_queue ps ms) (fresh b)) /\
    (forall m, In m ms -> In (target m) (sb_listeners b)).
Proof.
  intros H. unfold refresh_state, space_available. rewrite assert_true by (apply Nat.leb_le; exact H). ob.
  eexists; split; [reflexivity|]. split.
  2: { intros m. destruct (_ && _); [intros []|]. intros Hm. apply in_map_iff in Hm as (i & <- & Hi). exact Hi. }
  intros ps A. destruct (bs_empty (bs_xor (fresh b) (sb_state b)) && negb g) eqn:E; unfold fresh in E; rewrite E.
  - cbn. intros i p Hi En. apply (aligned_same p (sb_state b)); [exact (A i p Hi En)|].
    apply andb_prop in E as [E _]. apply negb_true_iff in E. fold (fresh b) in E |- *.
    destruct (bs_xor (fresh b) (sb_state b)) as [x y z t]. cbn in E.
    destruct x, y, z, t; try discriminate. unfold monitored. cbn. now rewrite !andb_false_r.
  - apply run_map. intros i p Hi En. fold (fresh b).
    destruct (monitored p (bs_xor (fresh b) (sb_state b)) || g) eqn:M; [now right|]. left.
    apply orb_false_iff in M as [M _]. apply (aligned_same p (sb_state b)); [exact (A i p Hi En)|exact M].
Qed.

(** * Readers limited to the space available *)
Lemma take_le r : forall n, (length (offered false (take_reader n r) : list B) <= n)%nat.
Proof.
  induction r as [|e r IH]; intros [|n]; cbn [take_reader]; try (cbn; lia).
  destruct e as [l| |]; try (cbn; lia).
  destruct (Nat.leb_spec (S n) (length l)) as [L|L].
  - assert (Hf : length (firstn (S n) l) = S n) by (rewrite firstn_length; lia).
    destruct (firstn (S n) l); cbn in *; [lia|]. rewrite app_nil_r. lia.
  - destruct l as [|x l]; [cbn; lia|]. cbn [offered]. rewrite app_length.
    specialize (IH (S n - length (x :: l))%nat). lia.
Qed.
Lemma take_mem n (l : list B) : (0 < n)%nat ->
  offered false (take_reader n (mem_reader (mkMem l (length l)) 0)) = firstn n l /\
  ends (take_reader n (mem_reader (mkMem l (length l)) 0)).
Proof.
  intros Hn. unfold mem_reader. cbn [m_bytes m_len skipn]. rewrite Nat.ltb_irrefl, app_nil_r.
  destruct n as [|n]; [lia|]. destruct l as [|x l]; cbn [take_reader]; [split; [reflexivity|exact I]|].
  destruct (Nat.leb_spec (S n) (length (x :: l))) as [L|L].
  - cbn. rewrite app_nil_r. auto.
  - assert (Et : forall k, match k with O => [] | S _ => @nil (rdev B) end = []) by (intros []; reflexivity).
    rewrite Et. cbn [offered ends]. rewrite app_nil_r. rewrite firstn_all2 by lia. auto.
Qed.
Lemma mem_offered (l : list B) n : (n < length l)%nat ->
  offered true (mem_reader (mkMem l (length l)) n) = skipn n l.
Proof.
  intros H. unfold mem_reader. cbn [m_bytes m_len]. rewrite Nat.ltb_irrefl, app_nil_r.
  assert (Hs : length (skipn n l) = (length l - n)%nat) by apply skipn_length.
  destruct (skipn n l) as [|x r]; cbn in *; [reflexivity|]. now rewrite app_nil_r.
Qed.

(** * Invariant *)
Definition pkt_ok (i : item B) : Prop := match i with IPkt [] => False | _ => True end.
Record bok b : Prop := {
  ok_wf : wf (sb_queue b);
  ok_cap : (0 < bq_cap (sb_queue b))%nat;
  ok_full : Forall full (bq_bytes (sb_queue b));
  ok_pkt : Forall pkt_ok (content (sb_queue b));
  ok_len : (total_bytes (content (sb_queue b)) <= sb_max b)%nat;
  ok_max : (0 < sb_max b)%nat
}.
Definition pok p : Prop :=
  p_buffer p = negb (p_closed p) /\ p_reader_handle p = isr p /\ p_writer_handle p = isw p /\
  (isr p = false -> p_readable p = false) /\ (isw p = false -> p_writable p = false).
Record inv wd : Prop := {
  i_buf : bok (w_buf wd);
  i_readers : sb_readers (w_buf wd) = count isr (w_pipes wd);
  i_writers : sb_writers (w_buf wd) = count isw (w_pipes wd);
  i_listen : forall i, In i (sb_listeners (w_buf wd)) <-> exists p, open_at wd i p;
  i_nodup : NoDup (sb_listeners (w_buf wd));
  i_pok : forall i p, nth_error (w_pipes wd) i = Some p -> pok p
}.
(** The status is up to date. *)
Definition synced wd : Prop :=
  sb_state (w_buf wd) = fresh (w_buf wd) /\ aligned_all (sb_listeners (w_buf wd)) (w_pipes wd) (sb_state (w_buf wd)).

Lemma bok_num b : bok b -> num_bytes (sb_queue b) = total_bytes (content (sb_queue b)).
Proof. intros H. apply (wf_len _ (ok_wf _ H)). Qed.
Lemma bok_has b : bok b -> has_data b = match content (sb_queue b) with [] => false | _ => true end.
Proof.
  intros H. unfold has_data, has_chunks. rewrite content_items. pose proof (ok_full _ H) as F.
  destruct (bq_bytes (sb_queue b)) as [|[d m t] r]; [reflexivity|]. cbn. inversion F as [|? ? F1 F2]; subst.
  destruct t; cbn.
  - unfold full in F1. cbn in F1. destruct d; [exfalso; exact (F1 eq_refl eq_refl)|reflexivity].
  - reflexivity.
Qed.
Lemma bok_queue b q : bok b -> wf q -> bq_cap q = bq_cap (sb_queue b) -> Forall full (bq_bytes q) -> Forall pkt_ok (content q) ->
  (total_bytes (content q) <= sb_max b)%nat -> bok (set_queue b q).
Proof. intros H W C F P L. split; cbn; auto. - rewrite C. apply H. - apply H. Qed.
Lemma bok_with b s : bok b -> bok (with_state b s).
Proof. intros H. split; cbn; apply H. Qed.
Lemma bok_counts b r w : bok b -> bok (set_counts b r w).
Proof. intros H. split; cbn; apply H. Qed.
Lemma bok_listeners b l : bok b -> bok (set_listeners b l).
Proof. intros H. split; cbn; apply H. Qed.
Lemma pkt_skip d (l : list (item B)) : Forall pkt_ok (map IByte d ++ l) <-> Forall pkt_ok l.
Proof.
  rewrite Forall_app. split; [tauto|]. intros H. split; [|exact H].
  apply Forall_forall. intros x Hx. apply in_map_iff in Hx as (y & <- & _). exact I.
Qed.

Lemma pok_align p s : pok p -> pok (align_state p s).
Proof.
  destruct p as [r w d m bu rh wh re wr ac cl]. unfold pok, isr, isw, align_state. cbn.
  destruct cl; cbn; [auto|]. rewrite !andb_true_r. intros (H1 & H2 & H3 & H4 & H5).
  split; [exact H1|]. split; [exact H2|]. split; [exact H3|]. split; [intros ->; auto|intros ->; auto].
Qed.
Lemma pok_run p p' : (p' = p \/ exists s, p' = align_state p s) -> pok p -> pok p'.
Proof. intros [->|(s & ->)] H; [exact H|now apply pok_align]. Qed.

(** Running callbacks keeps the invariant. *)
Lemma inv_run b ps ms : inv (mkWd b ps) -> inv (mkWd b (run_queue ps ms)).
Proof.
  intros [H1 H2 H3 H4 H5 H6]. cbn in *. split; cbn; auto.
  - rewrite count_run by apply isr_core. exact H2.
  - rewrite count_run by apply isw_core. exact H3.
  - intros i. rewrite H4. unfold open_at. cbn. split.
    + intros (p & E & C). destruct (run_queue_nth ms ps i p E) as (p' & E' & R). exists p'. split; [exact E'|].
      apply core_run, core_proj in R. destruct R as (_ & _ & _ & _ & _ & _ & _ & _ & ->). exact C.
    + intros (p' & E' & C). destruct (run_queue_back ms ps i p' E') as (p & E & R). exists p. split; [exact E|].
      apply core_run, core_proj in R. destruct R as (_ & _ & _ & _ & _ & _ & _ & _ & <-). exact C.
  - intros i p' E'. destruct (run_queue_back ms ps i p' E') as (p & E & R). apply (pok_run p p' R). eauto.
Qed.
Lemma inv_buf b b' ps : inv (mkWd b ps) -> bok b' -> sb_readers b' = sb_readers b -> sb_writers b' = sb_writers b ->
  sb_listeners b' = sb_listeners b -> inv (mkWd b' ps).
Proof.
  intros [H1 H2 H3 H4 H5 H6] K R W L. cbn in *. split; cbn; [exact K|congruence|congruence|rewrite L; exact H4|rewrite L; exact H5|exact H6].
Qed.

Lemma has_reader_count wd : inv wd -> (sb_readers (w_buf wd) =? 0) = true <-> ~ has_reader wd.
Proof.
  intros I. rewrite Z.eqb_eq, (i_readers _ I), count_zero. unfold has_reader, open_at. split.
  - intros H (i & p & (E & C) & R). specialize (H i p E). unfold isr in H. rewrite R, C in H. discriminate.
  - intros H i p E. unfold isr. destruct (p_read p) eqn:R; [|reflexivity]. destruct (p_closed p) eqn:C; [reflexivity|].
    exfalso. apply H. exists i, p. auto.
Qed.
Lemma has_writer_count wd : inv wd -> (sb_writers (w_buf wd) =? 0) = true <-> ~ has_writer wd.
Proof.
  intros I. rewrite Z.eqb_eq, (i_writers _ I), count_zero. unfold has_writer, open_at. split.
  - intros H (i & p & (E & C) & R). specialize (H i p E). unfold isw in H. rewrite R, C in H. discriminate.
  - intros H i p E. unfold isw. destruct (p_write p) eqn:R; [|reflexivity]. destruct (p_closed p) eqn:C; [reflexivity|].
    exfalso. apply H. exists i, p. auto.
Qed.

(** * Reading *)
Lemma sb_read_ok b w : bok b -> ~ In WBlock (w_script w) ->
  exists b' ms r out, sb_read b w = Some (b', ms, r, out) /\ bok b' /\
    sb_readers b' = sb_readers b /\ sb_writers b' = sb_writers b /\ sb_listeners b' = sb_listeners b /\ sb_max b' = sb_max b.
Proof.
  intros K NB. unfold sb_read.
  destruct (pop (sb_queue b) w) as [[[q r] out]|] eqn:E; [|exfalso; apply (pop_total _ _ (ok_wf _ K) NB E)].
  destruct (pop_ok _ _ _ _ _ (ok_wf _ K) E) as (W & C & F & rem & Hr & Ec). ob.
  assert (K' : bok (set_queue b q)).
  { apply bok_queue; auto.
    - apply F, K.
    - pose proof (ok_pkt _ K) as P. rewrite Ec in P. apply Forall_app in P. tauto.
    - pose proof (ok_len _ K) as P. rewrite Ec, total_app in P. lia. }
  destruct r as [x|e].
  - destruct (refresh_ok (set_queue b q) false) as (ms & Er & _).
    { rewrite (bok_num _ K'). apply K'. }
    rewrite Er. ob. eexists _, _, _, _. split; [reflexivity|]. split; [apply bok_with; exact K'|]. cbn. auto.
  - eexists _, _, _, _. split; [reflexivity|]. split; [exact K'|]. cbn. auto.
Qed.

Definition same b b' : Prop :=
  sb_readers b' = sb_readers b /\ sb_writers b' = sb_writers b /\ sb_listeners b' = sb_listeners b /\ sb_max b' = sb_max b.
(** [ms] brings the listeners up to date with [b']. *)
Definition tells b b' (ms : list msg) : Prop :=
  sb_state b' = fresh b' /\
  (forall ps, aligned_all (sb_listeners b) ps (sb_state b) -> aligned_all (sb_listeners b) (run_queue ps ms) (sb_state b')) /\
  (forall m, In m ms -> In (target m) (sb_listeners b)).
Lemma tells_refl b : sb_state b = fresh b -> tells b b [].
Proof. intros H. split; [exact H|]. split; [intros ps A; exact A|intros m []]. Qed.
Lemma tells_trans b b1 b2 m1 m2 : sb_listeners b1 = sb_listeners b -> tells b b1 m1 -> tells b1 b2 m2 -> tells b b2 (m1 ++ m2).
Proof.
  intros L (_ & T1 & M1) (S2 & T2 & M2). split; [exact S2|]. split.
  - intros ps A. rewrite run_queue_app, <- L. apply T2. rewrite L. now apply T1.
  - intros m Hm. apply in_app_iff in Hm as [Hm|Hm]; [auto|]. rewrite <- L. auto.
Qed.
Lemma refresh_bok b g : bok b -> exists ms, refresh_state b g = Some (with_state b (fresh b), ms) /\
  tells b (with_state b (fresh b)) ms.
Proof.
  intros K. destruct (refresh_ok b g) as (ms & E & T); [rewrite (bok_num _ K); apply K|].
  exists ms. split; [exact E|]. split; [reflexivity|]. exact T.
Qed.
Lemma tells_queue b q b' ms : tells (set_queue b q) b' ms -> tells b b' ms.
Proof. intros (S1 & T). split; [exact S1|]. exact T. Qed.

Lemma sb_read_slice b n : bok b ->
  exists b' ms m out, sb_read b (slice n) = Some (b', ms, inl (length out, m), out) /\ bok b' /\ same b b' /\ tells b b' ms /\
    exists r, read_result (content (sb_queue b)) n r out (content (sb_queue b')).
Proof.
  intros K. destruct (sb_read_ok b (slice n) K) as (b1 & ms1 & r1 & out1 & E1 & K1 & H1); [cbn; tauto|].
  unfold sb_read in *. destruct (pop_slice (sb_queue b) n (ok_wf _ K) (ok_full _ K)) as (q' & r & out & Ep & R).
  destruct (pop_ok _ _ _ _ _ (ok_wf _ K) Ep) as (W & C & F & rem & Hr & Ec).
  rewrite Ep in *. ob. ob_in E1.
  assert (K' : bok (set_queue b q')).
  { apply bok_queue; auto.
    - apply F, K.
    - pose proof (ok_pkt _ K) as P. rewrite Ec in P. apply Forall_app in P. tauto.
    - pose proof (ok_len _ K) as P. rewrite Ec, total_app in P. lia. }
  destruct (refresh_bok _ false K') as (ms & Er & T). rewrite Er in *.
  assert (X : exists m, match r with inl x => x | inr _ => None end = match r with inl x => x | inr _ => None end /\
     r = inl match r with inl x => x | inr _ => None end /\
     match match r with inl x => x | inr _ => None end with Some (n, m, _) => (n, m) | None => (0, 0)%nat end = (length out, m)).
  { unfold read_result in R. destruct (content (sb_queue b)) as [|[x|p] l].
    - destruct R as (-> & -> & _). exists O. auto.
    - destruct R as (_ & -> & _). eexists. auto.
    - destruct R as (_ & -> & _). eexists. auto. }
  destruct X as (m & _ & -> & Em). cbv zeta. rewrite Em. ob. eexists _, _, _, _. split; [reflexivity|].
  split; [apply bok_with; exact K'|]. split; [split; [|split; [|split]]; reflexivity|]. split; [apply (tells_queue _ _ _ _ T)|].
  eexists. exact R.
Qed.

(** * Writing *)
Lemma space_ok b : bok b -> space_available b = Some (sb_max b - total_bytes (content (sb_queue b)))%nat.
Proof.
  intros K. unfold space_available. rewrite (bok_num _ K). rewrite assert_true by (apply Nat.leb_le; apply K). reflexivity.
Qed.
Lemma write_stream_ok b src len orc : bok b ->
  exists b' ms r, write_stream b src len orc = Some (b', ms, r) /\ bok b' /\ same b b'.
Proof.
  intros K. unfold write_stream. destruct (Nat.eqb len 0); [eexists _, _, _; split; [reflexivity|]; split; [exact K|]; repeat split|].
  rewrite (space_ok _ K). ob. set (sp := (sb_max b - total_bytes (content (sb_queue b)))%nat).
  destruct (Nat.eqb sp 0); [eexists _, _, _; split; [reflexivity|]; split; [exact K|]; repeat split|].
  destruct (push_stream_ok (sb_queue b) (take_reader sp src) orc (ok_wf _ K) (ok_cap _ K)) as (q & res & E & W & Ec & C & _ & _ & F).
  rewrite E. ob.
  assert (K' : bok (set_queue b q)).
  { apply bok_queue; auto.
    - apply F, K.
    - rewrite Ec. apply Forall_app. split; [apply K|]. apply Forall_forall. intros x Hx. apply in_map_iff in Hx as (y & <- & _). exact I.
    - rewrite Ec, total_app, total_stream. pose proof (take_le src sp). pose proof (ok_len _ K). unfold sp in *. lia. }
  destruct res as [n|e].
  - destruct (refresh_bok _ (Nat.ltb 0 n) K') as (ms & Er & T). rewrite Er. ob.
    eexists _, _, _. split; [reflexivity|]. split; [apply bok_with; exact K'|]. repeat split.
  - eexists _, _, _. split; [reflexivity|]. split; [exact K'|]. repeat split.
Qed.
Lemma write_stream_clean b l orc : bok b -> let sp := (sb_max b - total_bytes (content (sb_queue b)))%nat in
  let k := Nat.min sp (length l) in
  exists b' ms r, write_stream b (mem_reader (mkMem l (length l)) 0) (length l) orc = Some (b', ms, r) /\
    (sb_state b = fresh b -> tells b b' ms) /\
    r = match l with [] => inl O | _ => if Nat.eqb sp 0 then inr EAGAIN else inl k end /\
    content (sb_queue b') = content (sb_queue b) ++ map IByte (firstn k l).
Proof.
  intros K sp k. unfold write_stream. destruct l as [|x l0].
  { cbn. eexists _, _, _. split; [reflexivity|]. split; [apply tells_refl|]. split; [reflexivity|].
    destruct k; now rewrite app_nil_r. }
  set (l := x :: l0) in *. replace (Nat.eqb (length l) 0) with false by reflexivity.
  rewrite (space_ok _ K). ob. fold sp. destruct (Nat.eqb_spec sp 0) as [Z|NZ].
  { eexists _, _, _. split; [reflexivity|]. split; [apply tells_refl|]. split; [reflexivity|].
    unfold k. rewrite Z. cbn. now rewrite app_nil_r. }
  destruct (take_mem sp l) as (Eo & Ends); [lia|].
  destruct (push_stream_ok (sb_queue b) (take_reader sp (mem_reader (mkMem l (length l)) 0)) orc (ok_wf _ K) (ok_cap _ K))
    as (q & res & E & W & Ec & C & Rs & _ & F).
  rewrite E. ob. rewrite (Rs Ends). rewrite Eo in *.
  assert (K' : bok (set_queue b q)).
  { apply bok_queue; auto.
    - apply F, K.
    - rewrite Ec. apply Forall_app. split; [apply K|]. apply Forall_forall. intros y Hy. apply in_map_iff in Hy as (z & <- & _). exact I.
    - rewrite Ec, total_app, total_stream, firstn_length. pose proof (ok_len _ K). unfold sp in *. lia. }
  destruct (refresh_bok _ (Nat.ltb 0 (length (firstn sp l))) K') as (ms & Er & T). rewrite Er. ob.
  eexists _, _, _. split; [reflexivity|]. split; [intros _; apply (tells_queue _ _ _ _ T)|].
  split; [now rewrite firstn_length|]. cbn [with_state sb_queue set_queue]. rewrite Ec. f_equal. f_equal.
  unfold k. destruct (Nat.le_ge_cases sp (length l)) as [L|L].
  - now rewrite Nat.min_l by exact L.
  - rewrite Nat.min_r by exact L. now rewrite !firstn_all2 by lia.
Qed.

Lemma write_packet_ok' b src k : bok b -> (0 < k)%nat ->
  exists b' ms e, sb_write_packet b src k = Some (b', ms, e) /\ bok b' /\ same b b' /\ (sb_state b = fresh b -> tells b b' ms) /\
    (e = None -> (k <= length (offered true src))%nat /\ (k <= sb_max b - total_bytes (content (sb_queue b)))%nat /\
       content (sb_queue b') = content (sb_queue b) ++ [IPkt (firstn k (offered true src))]) /\
    (e <> None -> b' = b /\ ms = []) /\
    ((k <= length (offered true src))%nat ->
       e = if Nat.ltb (sb_max b) k then Some EMSGSIZE
           else if Nat.ltb (sb_max b - total_bytes (content (sb_queue b))) k then Some EAGAIN else None).
Proof.
  intros K Hk. unfold sb_write_packet.
  assert (Stop : forall e : perrno, exists (b' : sbuf B) (ms : list msg) (e' : option perrno), Some (b, @nil msg, Some e) = Some (b', ms, e') /\ bok b' /\ same b b' /\
    (sb_state b = fresh b -> tells b b' ms) /\
    (e' = None -> (k <= length (offered true src))%nat /\ (k <= sb_max b - total_bytes (content (sb_queue b)))%nat /\
       content (sb_queue b') = content (sb_queue b) ++ [IPkt (firstn k (offered true src))]) /\
    (e' <> None -> b' = b /\ ms = []) /\ e' = Some e).
  { intros e. eexists _, _, _. split; [reflexivity|]. split; [exact K|]. split; [repeat split|]. split; [apply tells_refl|].
    split; [discriminate|]. split; [auto|reflexivity]. }
  destruct (Nat.ltb (sb_max b) k).
  { destruct (Stop EMSGSIZE) as (b' & ms & e & H1 & H2 & H3 & H4 & H5 & H6 & H7). exists b', ms, e. auto 8. }
  rewrite (space_ok _ K). ob. destruct (Nat.ltb_spec (sb_max b - total_bytes (content (sb_queue b))) k) as [L|L].
  { destruct (Stop EAGAIN) as (b' & ms & e & H1 & H2 & H3 & H4 & H5 & H6 & H7). exists b', ms, e. auto 8. }
  destruct (push_packet_ok (sb_queue b) src k (ok_wf _ K)) as (q & r & E & W & C & F & G1 & G2). rewrite E. ob.
  destruct (Nat.le_gt_cases k (length (offered true src))) as [Le|Gt].
  - destruct (G1 Le) as (-> & Ec).
    assert (Lf : length (firstn k (offered true src)) = k) by (rewrite firstn_length; lia).
    assert (K' : bok (set_queue b q)).
    { apply bok_queue; auto.
      - apply F, K.
      - rewrite Ec. apply Forall_app. split; [apply K|]. constructor; [|constructor]. cbn.
        destruct (firstn k (offered true src)); [cbn in Lf; lia|exact I].
      - rewrite Ec, total_app. cbn [total_bytes item_bytes]. rewrite Lf. pose proof (ok_len _ K). lia. }
    destruct (refresh_bok _ true K') as (ms & Er & T). rewrite Er. ob.
    eexists _, _, _. split; [reflexivity|]. split; [apply bok_with; exact K'|]. split; [repeat split|].
    split; [intros _; apply (tells_queue _ _ _ _ T)|]. split; [auto|]. split; [congruence|reflexivity].
  - destruct (G2 Gt) as ((e & ->) & ->).
    assert (Eb : set_queue b (sb_queue b) = b) by (destruct b; reflexivity). rewrite Eb.
    destruct (Stop (EIO e)) as (b' & ms & e' & H1 & H2 & H3 & H4 & H5 & H6 & H7). exists b', ms, e'.
    do 6 (split; [assumption|]). lia.
Qed.

Lemma packet_loop_ok PB m : (0 < PB)%nat -> forall fuel b nw, bok b -> (m_len m - nw < fuel)%nat -> (nw <= m_len m)%nat ->
  exists b' ms r, packet_loop PB fuel b m nw = Some (b', ms, r) /\ bok b' /\ same b b' /\ (sb_state b = fresh b -> tells b b' ms).
Proof.
  intros HP. induction fuel as [|fuel IH]; intros b nw K HF HN; [lia|]. cbn [packet_loop].
  destruct (Nat.eqb_spec (m_len m - nw) 0) as [Z|NZ].
  { eexists _, _, _. split; [reflexivity|]. split; [exact K|]. split; [repeat split|]. apply tells_refl. }
  set (k := Nat.min (m_len m - nw) PB).
  destruct (write_packet_ok' b (mem_reader m nw) k K) as (b1 & ms1 & e & E & K1 & S1 & T1 & _ & Ee & _); [lia|].
  rewrite E. ob. destruct e as [e|].
  { eexists _, _, _. split; [reflexivity|]. split; [exact K1|]. split; [exact S1|exact T1]. }
  destruct (IH b1 (nw + k)%nat K1) as (b2 & ms2 & r & E2 & K2 & S2 & T2); [lia|lia|].
  rewrite E2. ob. eexists _, _, _. split; [reflexivity|]. split; [exact K2|].
  destruct S1 as (A1 & A2 & A3 & A4), S2 as (B1 & B2 & B3 & B4).
  split; [split; [|split; [|split]]; congruence|]. intros H. specialize (T1 H).
  apply (tells_trans b b1); [exact A3|exact T1|]. apply T2. apply T1.
Qed.
Lemma skipn_firstn_min n (l : list B) : firstn (Nat.min (length l) n) l = firstn n l.
Proof.
  destruct (Nat.le_ge_cases n (length l)) as [L|L]; [now rewrite Nat.min_r by exact L|].
  rewrite Nat.min_l by exact L. now rewrite !firstn_all2 by lia.
Qed.
Lemma skipn_min n (l : list B) : skipn (Nat.min (length l) n) l = skipn n l.
Proof.
  destruct (Nat.le_ge_cases n (length l)) as [L|L]; [now rewrite Nat.min_r by exact L|].
  rewrite Nat.min_l by exact L. now rewrite !skipn_all2 by lia.
Qed.
Lemma skipn_add (a c : nat) (l : list B) : skipn (a + c) l = skipn c (skipn a l).
Proof. revert l. induction a as [|a IH]; intros l; [reflexivity|]. destruct l; [now rewrite !skipn_nil|]. cbn. apply IH. Qed.
Lemma packet_loop_clean PB l : (0 < PB)%nat -> forall fuel b nw, bok b -> (length l - nw < fuel)%nat -> (nw <= length l)%nat ->
  exists b' ms r, packet_loop PB fuel b (mkMem l (length l)) nw = Some (b', ms, r) /\
    let pk := packets fuel PB (sb_max b - total_bytes (content (sb_queue b))) (skipn nw l) in
    content (sb_queue b') = content (sb_queue b) ++ map IPkt pk /\
    r = match skipn nw l, pk with
        | [], _ => inl nw
        | rest, [] => if Nat.ltb 0 nw then inl nw
                   else if Nat.ltb (sb_max b) (Nat.min (length rest) PB) then inr EMSGSIZE else inr EAGAIN
        | _, _ => inl (nw + length (concat pk))%nat
        end.
Proof.
  intros HP. induction fuel as [|fuel IH]; intros b nw K HF HN; [lia|]. cbn [packet_loop m_len].
  destruct (Nat.eqb_spec (length l - nw) 0) as [Z|NZ].
  { eexists _, _, _. split; [reflexivity|]. rewrite skipn_all2 by lia. cbn. rewrite app_nil_r. auto. }
  set (k := Nat.min (length l - nw) PB).
  assert (Hs : length (skipn nw l) = (length l - nw)%nat) by apply skipn_length.
  destruct (write_packet_ok' b (mem_reader (mkMem l (length l)) nw) k K) as (b1 & ms1 & e & E & K1 & S1 & _ & En & Ee & Ev); [lia|].
  rewrite E. ob. rewrite mem_offered in * by lia. rewrite Hs in *. specialize (Ev ltac:(lia)).
  assert (Ef : firstn k (skipn nw l) = firstn PB (skipn nw l)).
  { unfold k. rewrite <- Hs. apply skipn_firstn_min. }
  assert (Lf : length (firstn PB (skipn nw l)) = k) by (rewrite firstn_length; lia).
  assert (Esk : skipn (nw + k) l = skipn PB (skipn nw l)).
  { rewrite skipn_add. unfold k. rewrite <- Hs. apply skipn_min. }
  destruct (skipn nw l) as [|x rest] eqn:Er; [cbn in Hs; lia|]. rewrite <- Er in *.
  assert (Ep : packets (S fuel) PB (sb_max b - total_bytes (content (sb_queue b))) (skipn nw l) =
    if Nat.leb k (sb_max b - total_bytes (content (sb_queue b)))
    then firstn PB (skipn nw l) :: packets fuel PB (sb_max b - total_bytes (content (sb_queue b)) - k) (skipn PB (skipn nw l))
    else []).
  { rewrite <- Lf. rewrite Er. reflexivity. }
  rewrite Ep. destruct e as [e|].
  - destruct Ee as [-> ->]; [discriminate|]. eexists _, _, _. split; [reflexivity|].
    assert (Lk : (sb_max b - total_bytes (content (sb_queue b)) < k)%nat).
    { destruct (Nat.ltb_spec (sb_max b) k); [lia|].
      destruct (Nat.ltb_spec (sb_max b - total_bytes (content (sb_queue b))) k); [assumption|discriminate]. }
    destruct (Nat.leb_spec k (sb_max b - total_bytes (content (sb_queue b)))); [lia|]. cbn [map]. rewrite app_nil_r.
    split; [reflexivity|]. rewrite Er. cbv iota. rewrite <- Er. rewrite Hs. fold k. destruct (Nat.ltb 0 nw); [reflexivity|].
    destruct (Nat.ltb (sb_max b) k); [now inversion Ev|].
    destruct (Nat.ltb (sb_max b - total_bytes (content (sb_queue b))) k); now inversion Ev.
  - destruct (En eq_refl) as (_ & Lk & Ec).
    destruct (Nat.leb_spec k (sb_max b - total_bytes (content (sb_queue b)))); [|lia].
    destruct (IH b1 (nw + k)%nat K1) as (b2 & ms2 & r & E2 & Ec2 & Rr); [lia|lia|].
    rewrite E2. ob. eexists _, _, _. split; [reflexivity|].
    rewrite Ef in Ec.
    assert (Esp : (sb_max b1 - total_bytes (content (sb_queue b1)) = sb_max b - total_bytes (content (sb_queue b)) - k)%nat).
    { destruct S1 as (_ & _ & _ & ->). rewrite Ec, total_app. cbn [total_bytes item_bytes]. rewrite Lf. lia. }
    rewrite Esp, Esk in *. split; [rewrite Ec2, Ec, <- app_assoc; reflexivity|].
    rewrite Er. cbv iota. rewrite <- Er. cbn [concat]. rewrite app_length, Lf, Nat.add_assoc. rewrite Rr.
    set (pk := packets fuel PB (sb_max b - total_bytes (content (sb_queue b)) - k) (skipn PB (skipn nw l))).
    assert (L0 : Nat.ltb 0 (nw + k) = true) by (apply Nat.ltb_lt; lia).
    destruct (skipn PB (skipn nw l)) eqn:E0.
    + assert (pk = []) by (unfold pk; destruct fuel; reflexivity). rewrite H0. cbn. f_equal. lia.
    + destruct pk; [rewrite L0; cbn; f_equal; lia|reflexivity].
Qed.

(** * Whole operations *)
Definition with_mode p d m : pipe :=
  mkP (p_read p) (p_write p) d m (p_buffer p) (p_reader_handle p) (p_writer_handle p)
      (p_readable p) (p_writable p) (p_active p) (p_closed p).
Lemma pok_mode p d m : pok p -> pok (with_mode p d m).
Proof. intros H. exact H. Qed.
Lemma inv_mode b ps i p d m : inv (mkWd b ps) -> nth_error ps i = Some p -> inv (mkWd b (set_pipe ps i (with_mode p d m))).
Proof.
  intros [H1 H2 H3 H4 H5 H6] E. cbn in *. assert (Li : (i < length ps)%nat) by (apply nth_error_Some; congruence).
  split; cbn; auto.
  - rewrite (count_set isr ps i p _ E). change (isr (with_mode p d m)) with (isr p). lia.
  - rewrite (count_set isw ps i p _ E). change (isw (with_mode p d m)) with (isw p). lia.
  - intros j. rewrite H4. unfold open_at. cbn. rewrite nth_set_pipe by exact Li.
    destruct (Nat.eqb_spec i j) as [->|N]; [|reflexivity]. split.
    + intros (q & Eq & C). assert (q = p) by congruence; subst. exists (with_mode p d m). auto.
    + intros (q & Eq & C). inversion Eq; subst. exists p. auto.
  - intros j q. rewrite nth_set_pipe by exact Li. destruct (Nat.eqb_spec i j) as [->|N]; [|eauto].
    intros Eq. inversion Eq; subst. apply pok_mode. eauto.
Qed.
Lemma aligned_mode ls ps i p d m s : aligned_all ls ps s -> nth_error ps i = Some p ->
  aligned_all ls (set_pipe ps i (with_mode p d m)) s.
Proof.
  intros A E j q Hj. rewrite nth_set_pipe by (apply nth_error_Some; congruence). destruct (Nat.eqb_spec i j) as [->|N]; [|eauto].
  intros Eq. inversion Eq; subst. specialize (A j p Hj E). unfold aligned, align_state in *. cbn.
  destruct (p_closed p) eqn:C; [reflexivity|]. pose proof (f_equal p_readable A) as H1. pose proof (f_equal p_writable A) as H2.
  cbn in H1, H2. rewrite H1, H2. unfold with_mode. now rewrite C.
Qed.

Lemma run_result b b' ps ms : inv (mkWd b ps) -> bok b' -> same b b' -> inv (mkWd b' (run_queue ps ms)).
Proof. intros I K (R & W & L & _). apply inv_run. apply (inv_buf b); auto. Qed.
Lemma run_synced b b' ps ms : aligned_all (sb_listeners b) ps (sb_state b) -> same b b' -> tells b b' ms ->
  synced (mkWd b' (run_queue ps ms)).
Proof. intros A (_ & _ & L & _) (S1 & T & _). split; cbn; [exact S1|]. rewrite L. now apply T. Qed.

Lemma readv_inv wd i w n wd' r out : inv wd -> readv wd i w n = Some (wd', r, out) -> ~ In WBlock (w_script w) ->
  inv wd' /\ capacity wd' = capacity wd /\ length (w_pipes wd') = length (w_pipes wd).
Proof.
  intros I E NB. unfold readv in E. destruct (nth_error (w_pipes wd) i) as [p|] eqn:Ep; [|discriminate]. ob_in E.
  destruct (negb (p_read p)); [inversion E; subst; auto|].
  unfold assert_then in E. destruct (p_buffer p); [|discriminate].
  destruct (sb_read_ok (w_buf wd) w (i_buf _ I) NB) as (b' & ms & r' & out' & Er & K & R & W & L & M).
  rewrite Er in E. ob_in E. inversion E; subst. split; [|split].
  - apply (run_result (w_buf wd)); [destruct wd; exact I|exact K|repeat split; auto].
  - exact M.
  - apply run_queue_len.
Qed.
Lemma readv_total wd i w n p : inv wd -> open_at wd i p -> ~ In WBlock (w_script w) -> readv wd i w n <> None.
Proof.
  intros I (Ep & C) NB. unfold readv. rewrite Ep. ob. destruct (negb (p_read p)); [discriminate|].
  destruct (i_pok _ I i p Ep) as (Hb & _). rewrite assert_true by (rewrite Hb, C; reflexivity).
  destruct (sb_read_ok (w_buf wd) w (i_buf _ I) NB) as (b' & ms & r' & out' & Er & _). rewrite Er. ob. discriminate.
Qed.
Lemma readv_clean wd i n p : inv wd -> open_at wd i p -> p_read p = true ->
  exists wd' r out, readv wd i (slice n) n = Some (wd', r, out) /\ (synced wd -> synced wd') /\
    (exists x, read_result (held wd) n x out (held wd')) /\
    (r = inr EWOULDBLOCK <-> held wd = [] /\ n <> O /\ has_writer wd) /\
    (r <> inr EWOULDBLOCK -> r = inl (length out)).
Proof.
  intros I (Ep & C) R. unfold readv. rewrite Ep. ob. rewrite R. cbn [negb].
  destruct (i_pok _ I i p Ep) as (Hb & _). rewrite assert_true by (rewrite Hb, C; reflexivity).
  destruct (sb_read_slice (w_buf wd) n (i_buf _ I)) as (b' & ms & m & out & Er & K & S & T & x & X).
  rewrite Er. ob. eexists _, _, _. split; [reflexivity|]. split; [|split; [|split]].
  - intros (_ & A). apply (run_synced (w_buf wd)); auto.
  - exists x. exact X.
  - assert (Hw : (0 <? sb_writers b') = true <-> has_writer wd).
    { destruct S as (_ & -> & _). pose proof (has_writer_count wd I) as Q. rewrite (i_writers _ I) in *.
      pose proof (count_le isw (w_pipes wd)). unfold has_writer in *. rewrite Z.ltb_lt. rewrite Z.eqb_eq in Q. split.
      - intros Hp. rewrite count_zero in Q.
        assert (D : count isw (w_pipes wd) <> 0) by lia.
        destruct (count_ex _ _ D) as (j & q & Hj & Hq). unfold isw in Hq. apply andb_prop in Hq as [Q1 Q2]. apply negb_true_iff in Q2.
        exists j, q. unfold open_at. auto.
      - intros He. destruct (Z.eq_dec (count isw (w_pipes wd)) 0) as [Z0|]; [|lia]. exfalso. apply Q in Z0. auto. }
    assert (Hl : length out = O <-> held wd = [] \/ n = O).
    { unfold held. pose proof (ok_pkt _ (i_buf _ I)) as P. unfold read_result in X. destruct (content (sb_queue (w_buf wd))) as [|[y|q] l].
      - destruct X as (_ & -> & _). cbn. tauto.
      - destruct X as (-> & _). destruct n; cbn; [tauto|]. split; [lia|]. intros [|]; congruence.
      - destruct X as (-> & _). inversion P as [|? ? P1 P2]; subst. destruct q as [|z q]; [destruct P1|].
        destruct n; cbn; [tauto|]. split; [lia|]. intros [|]; congruence. }
    destruct (Nat.eqb_spec (length out) 0) as [Z|Z]; [destruct (Nat.eqb_spec n 0) as [Zn|Zn]; [|destruct (0 <? sb_writers b') eqn:Ew]|]; cbn.
    + split; [discriminate|]. tauto.
    + split; [|reflexivity]. intros _. tauto.
    + split; [discriminate|]. intros (_ & _ & Hh). apply Hw in Hh. discriminate.
    + split; [discriminate|]. tauto.
  - intros Hr. destruct (Nat.eqb (length out) 0 && negb (Nat.eqb n 0) && (0 <? sb_writers b')); [congruence|reflexivity].
Qed.

Lemma writev_inv PB wd i m orc wd' r : (0 < PB)%nat -> inv wd -> writev PB wd i m orc = Some (wd', r) ->
  inv wd' /\ capacity wd' = capacity wd /\ length (w_pipes wd') = length (w_pipes wd).
Proof.
  intros HP I E. unfold writev in E. destruct (nth_error (w_pipes wd) i) as [p|] eqn:Ep; [|discriminate]. ob_in E.
  destruct (negb (p_write p)); [inversion E; subst; auto|].
  unfold assert_then in E. destruct (p_buffer p) eqn:Eb; [|discriminate].
  destruct (sb_readers (w_buf wd) =? 0); [inversion E; subst; auto|].
  set (mode := match p_wmode p with Packet => if p_direct p then Packet else Stream
               | Stream => if p_direct p && negb (has_data (w_buf wd)) then Packet else Stream end) in *.
  assert (X : exists b' ms r', match mode with Stream => write_stream (w_buf wd) (mem_reader m 0) (m_len m) orc
      | Packet => packet_loop PB (S (m_len m)) (w_buf wd) m 0 end = Some (b', ms, r') /\ bok b' /\ same (w_buf wd) b').
  { destruct mode.
    - apply write_stream_ok. apply I.
    - destruct (packet_loop_ok PB m HP (S (m_len m)) (w_buf wd) 0 (i_buf _ I)) as (b' & ms & r' & E' & K & S & _); [lia|lia|]. eauto 6. }
  destruct X as (b' & ms & r' & E' & K & S). rewrite E' in E. ob_in E. inversion E; subst. split; [|split].
  - apply (run_result (w_buf wd)); [|exact K|exact S].
    pose proof (inv_mode (w_buf wd) (w_pipes wd) i p (p_direct p) mode) as IM. unfold with_mode in IM. rewrite Eb in IM.
    apply IM; [destruct wd; exact I|exact Ep].
  - apply S.
  - cbn. rewrite run_queue_len. apply len_set_pipe.
Qed.
Lemma writev_total PB wd i m orc p : (0 < PB)%nat -> inv wd -> open_at wd i p -> writev PB wd i m orc <> None.
Proof.
  intros HP I (Ep & C). unfold writev. rewrite Ep. ob. destruct (negb (p_write p)); [discriminate|].
  destruct (i_pok _ I i p Ep) as (Hb & _). rewrite assert_true by (rewrite Hb, C; reflexivity).
  destruct (sb_readers (w_buf wd) =? 0); [discriminate|].
  match goal with |- context [match ?x with Stream => _ | Packet => _ end] => destruct x end.
  all: match goal with |- context [match ?x with Stream => _ | Packet => _ end] => destruct x | _ => idtac end.
  all: try (destruct (write_stream_ok (w_buf wd) (mem_reader m 0) (m_len m) orc (i_buf _ I)) as (b' & ms & r' & E' & _); rewrite E'; ob; discriminate).
  all: destruct (packet_loop_ok PB m HP (S (m_len m)) (w_buf wd) 0 (i_buf _ I)) as (b' & ms & r' & E' & _); [lia|lia|]; rewrite E'; ob; discriminate.
Qed.
Lemma writev_clean PB wd i l orc p : (0 < PB)%nat -> inv wd -> open_at wd i p -> p_write p = true ->
  exists wd' r, writev PB wd i (mkMem l (length l)) orc = Some (wd', r) /\ (synced wd -> synced wd') /\
    (r = inr EPIPE <-> ~ has_reader wd) /\ (~ has_reader wd -> wd' = wd) /\
    (has_reader wd -> exists added, held wd' = held wd ++ added /\
       (packet_mode wd p -> packet_outcome PB wd l r added) /\ (~ packet_mode wd p -> stream_outcome wd l r added)).
Proof.
  intros HP I (Ep & C) R. unfold writev. rewrite Ep. ob. rewrite R. cbn [negb].
  destruct (i_pok _ I i p Ep) as (Hb & _). rewrite C in Hb. cbn in Hb. rewrite assert_true by exact Hb.
  pose proof (has_reader_count wd I) as HR. destruct (sb_readers (w_buf wd) =? 0) eqn:Er.
  { eexists _, _. split; [reflexivity|]. split; [auto|]. assert (~ has_reader wd) by (apply HR; reflexivity). split; [tauto|]. tauto. }
  assert (Hr : has_reader wd -> True) by auto.
  set (mode := match p_wmode p with Packet => if p_direct p then Packet else Stream
               | Stream => if p_direct p && negb (has_data (w_buf wd)) then Packet else Stream end) in *.
  assert (Hm : mode = Packet <-> packet_mode wd p).
  { unfold mode, packet_mode, held. rewrite (bok_has _ (i_buf _ I)).
    destruct (p_wmode p), (p_direct p), (content (sb_queue (w_buf wd))); cbn; split; try discriminate; auto; intros (D & [X|X]); discriminate. }
  assert (NE : forall r : nat + perrno, r <> inr EPIPE -> (r = inr EPIPE <-> ~ has_reader wd)).
  { intros r Nr. split; [congruence|]. intros Hn. apply HR in Hn. discriminate. }
  assert (Sy : forall b' ms, same (w_buf wd) b' -> (sb_state (w_buf wd) = fresh (w_buf wd) -> tells (w_buf wd) b' ms) -> synced wd ->
     synced (mkWd b' (run_queue (set_pipe (w_pipes wd) i (with_mode p (p_direct p) mode)) ms))).
  { intros b' ms Hs Ht (S1 & A). apply (run_synced (w_buf wd)); auto. apply aligned_mode; auto. }
  unfold with_mode in Sy. rewrite R, C in *.
  clearbody mode. destruct mode.
  - destruct (write_stream_clean (w_buf wd) l orc (i_buf _ I)) as (b' & ms & r & E & T & Rr & Ec).
    destruct (write_stream_ok (w_buf wd) (mem_reader (mkMem l (length l)) 0) (length l) orc (i_buf _ I)) as (b2 & ms2 & r2 & E2 & _ & S).
    rewrite E in E2. inversion E2; subst b2 ms2 r2. cbn [m_len]. rewrite E. ob. eexists _, _. split; [reflexivity|].
    split; [apply Sy; auto|]. split; [apply NE; rewrite Rr; destruct l; [discriminate|]; destruct (Nat.eqb _ 0); discriminate|].
    split; [intros Hn; exfalso; apply HR in Hn; discriminate|]. intros _.
    eexists. split; [exact Ec|]. split; [intros Hp; apply Hm in Hp; discriminate|]. intros _. split; [reflexivity|exact Rr].
  - destruct (packet_loop_clean PB l HP (S (length l)) (w_buf wd) 0 (i_buf _ I)) as (b' & ms & r & E & Ec & Rr); [lia|lia|].
    destruct (packet_loop_ok PB (mkMem l (length l)) HP (S (length l)) (w_buf wd) 0 (i_buf _ I)) as (b2 & ms2 & r2 & E2 & _ & S & T); [cbn; lia|cbn; lia|].
    rewrite E in E2. inversion E2; subst b2 ms2 r2. cbn [m_len]. rewrite E. ob. eexists _, _. split; [reflexivity|].
    cbn [skipn] in Ec, Rr.
    split; [apply Sy; auto|]. split; [apply NE; rewrite Rr; cbn [Nat.ltb Nat.leb]; repeat (match goal with |- context [match ?x with _ => _ end] => destruct x end; try discriminate)|].
    split; [intros Hn; exfalso; apply HR in Hn; discriminate|]. intros _.
    eexists. split; [exact Ec|]. split; [|intros Hp; exfalso; apply Hp, Hm; reflexivity]. intros _. split; [reflexivity|].
    rewrite Rr. unfold room, capacity, held. destruct l; [reflexivity|]. destruct (packets _ _ _ _); reflexivity.
Qed.

(** Counting steps: buffers that differ in counters and state only. *)
Definition recount b b' (r w : Z) : Prop :=
  sb_queue b' = sb_queue b /\ sb_max b' = sb_max b /\ sb_listeners b' = sb_listeners b /\
  sb_readers b' = sb_readers b + r /\ sb_writers b' = sb_writers b + w.
Lemma refresh_count b r w : bok b -> exists b' ms, refresh_state (set_counts b (sb_readers b + r) (sb_writers b + w)) false = Some (b', ms) /\
  bok b' /\ recount b b' r w /\ tells b b' ms.
Proof.
  intros K. assert (K' : bok (set_counts b (sb_readers b + r) (sb_writers b + w))) by now apply bok_counts.
  destruct (refresh_bok _ false K') as (ms & E & T). eexists _, _. split; [exact E|]. split; [now apply bok_with|].
  split; [repeat split|]. destruct T as (S1 & T). split; [exact S1|exact T].
Qed.
Lemma count_step (c : bool) b (b' : sbuf B) ms r w :
  (if c then check (if Z.eqb r 0 then (if 0 <? w then sb_writers b + 1 <=? U16_MAX else 1 <=? sb_writers b)
                    else (if 0 <? r then sb_readers b + 1 <=? U16_MAX else 1 <=? sb_readers b));
             refresh_state (set_counts b (sb_readers b + r) (sb_writers b + w)) false
   else Some (b, [])) = Some (b', ms) -> bok b ->
  bok b' /\ recount b b' (if c then r else 0) (if c then w else 0) /\ (sb_state b = fresh b -> tells b b' ms).
Proof.
  intros E K. destruct c.
  - unfold assert_then in E. destruct (if Z.eqb r 0 then _ else _); [|discriminate].
    destruct (refresh_count b r w K) as (b1 & m1 & E1 & H). rewrite E1 in E. inversion E; subst. tauto.
  - inversion E; subst. split; [exact K|]. split; [|apply tells_refl]. split; [reflexivity|]. split; [reflexivity|]. split; [reflexivity|]. lia.
Qed.
Lemma add_writer_eq b : add_writer b = (check (sb_writers b + 1 <=? U16_MAX); refresh_state (set_counts b (sb_readers b + 0) (sb_writers b + 1)) false).
Proof. unfold add_writer. now rewrite Z.add_0_r. Qed.
Lemma add_reader_eq b : add_reader b = (check (sb_readers b + 1 <=? U16_MAX); refresh_state (set_counts b (sb_readers b + 1) (sb_writers b + 0)) false).
Proof. unfold add_reader. now rewrite Z.add_0_r. Qed.
Lemma rem_writer_eq b : remove_writer b = (check (1 <=? sb_writers b); refresh_state (set_counts b (sb_readers b + 0) (sb_writers b + -1)) false).
Proof. unfold remove_writer. now rewrite Z.add_0_r. Qed.
Lemma rem_reader_eq b : remove_reader b = (check (1 <=? sb_readers b); refresh_state (set_counts b (sb_readers b + -1) (sb_writers b + 0)) false).
Proof. unfold remove_reader. now rewrite Z.add_0_r. Qed.

Lemma recount_trans b b1 b2 r w r' w' : recount b b1 r w -> recount b1 b2 r' w' -> recount b b2 (r + r') (w + w').
Proof.
  intros (A1 & A2 & A3 & A4 & A5) (B1 & B2 & B3 & B4 & B5). split; [congruence|]. split; [congruence|]. split; [congruence|]. lia.
Qed.
Lemma chain b b1 b2 m1 m2 : sb_listeners b1 = sb_listeners b -> (sb_state b = fresh b -> tells b b1 m1) ->
  (sb_state b1 = fresh b1 -> tells b1 b2 m2) -> sb_state b = fresh b -> tells b b2 (m1 ++ m2).
Proof. intros L T1 T2 S. specialize (T1 S). apply (tells_trans b b1); auto. apply T2. apply T1. Qed.

Lemma connect_ok wd r w d wd' : inv wd -> connect wd r w d = Some wd' ->
  inv wd' /\ (synced wd -> synced wd') /\ held wd' = held wd /\ capacity wd' = capacity wd /\
  length (w_pipes wd') = S (length (w_pipes wd)).
Proof.
  intros I E. unfold connect in E. set (b := w_buf wd) in *. set (n := length (w_pipes wd)) in *. cbv zeta in E.
  destruct (if w then add_writer b else Some (b, [])) as [[b1 m1]|] eqn:E1; [|discriminate]. ob_in E.
  destruct (if r then add_reader b1 else Some (b1, [])) as [[b2 m2]|] eqn:E2; [|discriminate]. ob_in E.
  rewrite add_writer_eq in E1. apply (count_step w b b1 m1 0 1) in E1; [|apply I]. destruct E1 as (K1 & R1 & T1).
  rewrite add_reader_eq in E2. apply (count_step r b1 b2 m2 1 0) in E2; [|exact K1]. destruct E2 as (K2 & R2 & T2).
  pose proof (recount_trans _ _ _ _ _ _ _ R1 R2) as R.
  assert (L1 : sb_listeners b1 = sb_listeners b) by apply R1.
  pose proof (chain b b1 b2 m1 m2 L1 T1 T2) as T. clear T1 T2 R1 R2 K1 L1.
  destruct R as (Rq & Rm & Rl & Rr & Rw). inversion E; subst wd'; clear E.
  set (p := align_state (mkP r w d Stream true r w false false true false) (sb_state b2)).
  assert (Cp : core p = core (mkP r w d Stream true r w false false true false)) by apply align_core.
  assert (Pp : pok p) by (apply pok_align; unfold pok, isr, isw; cbn; rewrite !andb_true_r; auto).
  assert (Cl : p_closed p = false) by reflexivity.
  assert (Ap : aligned p (sb_state b2)) by apply aligned_align. clearbody p.
  assert (Op : forall i, (exists q, nth_error (w_pipes wd ++ [p]) i = Some q /\ p_closed q = false) <->
      (exists q, open_at wd i q) \/ i = n).
  { intros i. unfold open_at. split.
    - intros (q & Eq & C). destruct (Nat.lt_ge_cases i n) as [L|L].
      + rewrite nth_error_app1 in Eq by exact L. left. eauto.
      + right. assert (i < length (w_pipes wd ++ [p]))%nat by (apply nth_error_Some; congruence).
        rewrite app_length in H. cbn in H. fold n in H. lia.
    - intros [(q & Eq & C)| ->].
      + exists q. split; [|exact C]. rewrite nth_error_app1 by (apply nth_error_Some; congruence). exact Eq.
      + exists p. split; [|exact Cl]. rewrite nth_error_app2 by (fold n; lia). fold n. now rewrite Nat.sub_diag. }
  assert (Nn : ~ In n (sb_listeners b)).
  { intros Hin. apply (i_listen _ I) in Hin as (q & Eq & _). assert (n < length (w_pipes wd))%nat by (apply nth_error_Some; congruence). fold n in H. lia. }
  split; [|split; [|split; [|split]]].
  - apply inv_run. split; cbn.
    + apply bok_listeners. exact K2.
    + rewrite count_snoc, Rr. unfold b. rewrite (i_readers _ I). rewrite (isr_core _ _ Cp). unfold isr. cbn. rewrite andb_true_r.
      destruct w, r; lia.
    + rewrite count_snoc, Rw. unfold b. rewrite (i_writers _ I). rewrite (isw_core _ _ Cp). unfold isw. cbn. rewrite andb_true_r.
      destruct w, r; lia.
    + intros i. rewrite in_app_iff, Rl. unfold b. rewrite (i_listen _ I). unfold open_at at 2. cbn. rewrite Op. cbn.
      split; [intros [H|[H|[]]]|intros [H|H]]; subst; auto.
    + rewrite Rl. apply nodup_snoc; [apply (i_nodup _ I)|exact Nn].
    + intros i q Eq. destruct (Nat.lt_ge_cases i n) as [L|L].
      * rewrite nth_error_app1 in Eq by exact L. apply (i_pok _ I i q Eq).
      * rewrite nth_error_app2 in Eq by exact L. destruct (i - length (w_pipes wd))%nat as [|[|k]]; cbn in Eq; [|discriminate|discriminate].
        inversion Eq; subst. exact Pp.
  - intros (S1 & A). destruct (T S1) as (S2 & T' & M). split; cbn; [exact S2|].
    intros i q Hi Eq. apply in_app_iff in Hi as [Hi|[<-|[]]].
    + rewrite Rl in Hi. refine (T' (w_pipes wd ++ [p]) _ i q Hi Eq).
      intros j q' Hj Eq'. pose proof Hj as Hj'. apply (i_listen _ I) in Hj' as (q2 & Eq2 & _).
      rewrite nth_error_app1 in Eq' by (apply nth_error_Some; congruence). exact (A j q' Hj Eq').
    + rewrite run_queue_other in Eq by (intros m Hm He; apply M in Hm; unfold target in Hm; rewrite He in Hm; contradiction).
      rewrite nth_error_app2 in Eq by (fold n; lia). fold n in Eq. rewrite Nat.sub_diag in Eq. cbn in Eq. inversion Eq; subst q. exact Ap.
  - unfold held. cbn. now rewrite Rq.
  - exact Rm.
  - cbn. rewrite run_queue_len, app_length. cbn. fold n. lia.
Qed.

Lemma remove_nat_ok i : forall l l', remove_nat i l = Some l' -> NoDup l ->
  (forall j, In j l' <-> In j l /\ j <> i) /\ NoDup l'.
Proof.
  induction l as [|x l IH]; intros l' E N; cbn in E; [discriminate|]. inversion N as [|? ? N1 N2]; subst.
  destruct (Nat.eqb_spec x i) as [->|Nx].
  - inversion E; subst. split; [|exact N2]. intros j. cbn. split.
    + intros Hj. split; [auto|]. intros ->. contradiction.
    + intros ([Hj|Hj] & Ne); [congruence|exact Hj].
  - destruct (remove_nat i l) as [r|]; [|discriminate]. ob_in E. inversion E; subst. destruct (IH r eq_refl N2) as (H1 & H2).
    split.
    + intros j. cbn. rewrite H1. split.
      * intros [->|(Hj & Ne)]; auto.
      * intros ([->|Hj] & Ne); auto.
    + constructor; [|exact H2]. rewrite H1. tauto.
Qed.
Lemma remove_nat_some i : forall l, In i l -> remove_nat i l <> None.
Proof.
  induction l as [|x l IH]; intros Hi; cbn; [destruct Hi|]. destruct (Nat.eqb_spec x i) as [->|N]; [discriminate|].
  destruct Hi as [Hi|Hi]; [congruence|]. specialize (IH Hi). destruct (remove_nat i l); [ob; discriminate|congruence].
Qed.

Lemma close_ok wd i wd' : inv wd -> close wd i = Some wd' ->
  inv wd' /\ (synced wd -> synced wd') /\ held wd' = held wd /\ capacity wd' = capacity wd /\
  length (w_pipes wd') = length (w_pipes wd).
Proof.
  intros I E. unfold close in E. destruct (nth_error (w_pipes wd) i) as [p|] eqn:Ep; [|discriminate]. ob_in E.
  set (b := w_buf wd) in *. cbv zeta in E.
  destruct (i_pok _ I i p Ep) as (Pb & Pr & Pw & P4 & P5).
  assert (Li : (i < length (w_pipes wd))%nat) by (apply nth_error_Some; congruence).
  destruct (if p_buffer p then _ else _) as [b0|] eqn:E0; [|discriminate]. ob_in E.
  assert (H0 : b0 = set_listeners b (sb_listeners b0) /\ NoDup (sb_listeners b0) /\
    (forall j, In j (sb_listeners b0) <-> In j (sb_listeners b) /\ j <> i)).
  { pose proof (i_nodup _ I) as N. fold b in N. destruct (p_buffer p) eqn:Eb.
    - destruct (remove_nat i (sb_listeners b)) as [l|] eqn:El; [|discriminate]. ob_in E0. inversion E0; subst. cbn.
      destruct (remove_nat_ok _ _ _ El N). auto.
    - inversion E0; subst. split; [destruct b; reflexivity|]. split; [exact N|]. intros j. split; [|tauto].
      intros Hj. split; [exact Hj|]. intros ->. apply (i_listen _ I) in Hj as (q & Eq & C). assert (q = p) by congruence; subst.
      rewrite C in Pb. discriminate. }
  destruct H0 as (Hb0 & N0 & L0). clear E0.
  assert (K0 : bok b0) by (rewrite Hb0; apply bok_listeners; apply I).
  assert (Bw : forall X, (if p_writer_handle p then check (p_buffer p); X else Some (b0, [])) = (if p_writer_handle p then X else Some (b0, @nil msg))).
  { intros X. destruct (p_writer_handle p); [|reflexivity]. symmetry in Pw. unfold isw in Pw. apply andb_prop in Pw as [_ Pw].
    rewrite Pb, Pw. reflexivity. }
  rewrite Bw in E. destruct (if p_writer_handle p then remove_writer b0 else Some (b0, [])) as [[b1 m1]|] eqn:E1; [|discriminate]. ob_in E.
  assert (Br : forall X, (if p_reader_handle p then check (p_buffer p); X else Some (b1, [])) = (if p_reader_handle p then X else Some (b1, @nil msg))).
  { intros X. destruct (p_reader_handle p); [|reflexivity]. symmetry in Pr. unfold isr in Pr. apply andb_prop in Pr as [_ Pr].
    rewrite Pb, Pr. reflexivity. }
  rewrite Br in E. destruct (if p_reader_handle p then remove_reader b1 else Some (b1, [])) as [[b2 m2]|] eqn:E2; [|discriminate]. ob_in E.
  rewrite rem_writer_eq in E1. apply (count_step _ b0 b1 m1 0 (-1)) in E1; [|exact K0]. destruct E1 as (K1 & R1 & T1).
  rewrite rem_reader_eq in E2. apply (count_step _ b1 b2 m2 (-1) 0) in E2; [|exact K1]. destruct E2 as (K2 & R2 & T2).
  pose proof (recount_trans _ _ _ _ _ _ _ R1 R2) as R.
  assert (L1 : sb_listeners b1 = sb_listeners b0) by apply R1.
  pose proof (chain b0 b1 b2 m1 m2 L1 T1 T2) as T. clear T1 T2 R1 R2 K1 L1 Bw Br.
  destruct R as (Rq & Rm & Rl & Rr & Rw). inversion E; subst wd'; clear E.
  set (p' := mkP (p_read p) (p_write p) (p_direct p) (p_wmode p) false false false false false false true).
  assert (Q0 : sb_queue b0 = sb_queue b /\ sb_max b0 = sb_max b /\ sb_readers b0 = sb_readers b /\ sb_writers b0 = sb_writers b /\ sb_state b0 = sb_state b /\
               fresh b0 = fresh b) by (rewrite Hb0; repeat split).
  destruct Q0 as (Q1 & Q2 & Q3 & Q4 & Q5 & Q6).
  split; [|split; [|split; [|split]]].
  - apply inv_run. split; cbn.
    + exact K2.
    + rewrite (count_set isr _ i p _ Ep), Rr, Q3. unfold b. rewrite (i_readers _ I), Pr.
      assert (isr p' = false) by (unfold isr, p'; cbn; apply andb_false_r). rewrite H. destruct (p_writer_handle p), (isr p); lia.
    + rewrite (count_set isw _ i p _ Ep), Rw, Q4. unfold b. rewrite (i_writers _ I), Pw.
      assert (isw p' = false) by (unfold isw, p'; cbn; apply andb_false_r). rewrite H. destruct (p_reader_handle p), (isw p); lia.
    + intros j. rewrite Rl, L0. unfold b. rewrite (i_listen _ I). unfold open_at. cbn. rewrite nth_set_pipe by exact Li.
      destruct (Nat.eqb_spec i j) as [->|Ne].
      * split; [tauto|]. intros (q & Eq & C). inversion Eq; subst. discriminate.
      * split; [intros (Hq & _); exact Hq|]. intros Hq. split; [exact Hq|congruence].
    + rewrite Rl. exact N0.
    + intros j q. rewrite nth_set_pipe by exact Li. destruct (Nat.eqb_spec i j) as [->|Ne]; [|apply (i_pok _ I)].
      intros Eq. inversion Eq; subst. unfold pok, isr, isw, p'. cbn. rewrite !andb_false_r. auto.
  - intros (S1 & A). fold b in S1, A. rewrite <- Q5, <- Q6 in S1. destruct (T S1) as (S2 & T' & _). split; cbn; [exact S2|].
    rewrite Rl. apply T'. intros j q Hj. apply L0 in Hj as (Hj & Ne). rewrite nth_set_pipe by exact Li.
    destruct (Nat.eqb_spec i j) as [->|_]; [congruence|]. rewrite Q5. apply A. exact Hj.
  - unfold held. cbn. now rewrite Rq, Q1.
  - unfold capacity. cbn. fold b. now rewrite Rm.
  - cbn. rewrite run_queue_len. apply len_set_pipe.
Qed.
Lemma connect_total wd r w d : inv wd -> (length (w_pipes wd) < Z.to_nat U16_MAX)%nat -> connect wd r w d <> None.
Proof.
  intros I HL. unfold connect. set (b := w_buf wd).
  pose proof (count_le isr (w_pipes wd)) as Cr. pose proof (count_le isw (w_pipes wd)) as Cw.
  rewrite <- (i_readers _ I) in Cr. rewrite <- (i_writers _ I) in Cw. fold b in Cr, Cw.
  assert (HU : Z.of_nat (length (w_pipes wd)) + 1 <= U16_MAX) by (assert (0 <= U16_MAX) by (unfold U16_MAX; lia); lia). clear HL.
  assert (X1 : exists b1 m1, (if w then add_writer b else Some (b, [])) = Some (b1, m1) /\ bok b1 /\ sb_readers b1 = sb_readers b).
  { destruct w; [|eexists _, _; split; [reflexivity|]; split; [apply I|reflexivity]]. rewrite add_writer_eq.
    rewrite assert_true by (apply Z.leb_le; lia). destruct (refresh_count b 0 1 (i_buf _ I)) as (b1 & m1 & E1 & K & R & _).
    exists b1, m1. split; [exact E1|]. split; [exact K|]. destruct R as (_ & _ & _ & -> & _). lia. }
  destruct X1 as (b1 & m1 & E1 & K1 & Rr). rewrite E1. ob.
  assert (X2 : exists b2 m2, (if r then add_reader b1 else Some (b1, [])) = Some (b2, m2)).
  { destruct r; [|eauto]. rewrite add_reader_eq. rewrite assert_true by (apply Z.leb_le; rewrite Rr; lia).
    destruct (refresh_count b1 1 0 K1) as (b2 & m2 & E2 & _). eauto. }
  destruct X2 as (b2 & m2 & E2). rewrite E2. ob. discriminate.
Qed.
Lemma count_pos f l i p : nth_error l i = Some p -> f p = true -> 1 <= count f l.
Proof.
  intros E F. pose proof (count_le f l). destruct (Z.eq_dec (count f l) 0) as [Z0|]; [|lia].
  rewrite count_zero in Z0. rewrite (Z0 i p E) in F. discriminate.
Qed.
Lemma close_total wd i p : inv wd -> open_at wd i p -> close wd i <> None.
Proof.
  intros I (Ep & C). unfold close. rewrite Ep. ob. destruct (i_pok _ I i p Ep) as (Pb & Pr & Pw & _).
  rewrite C in Pb. cbn in Pb. rewrite Pb.
  assert (Hin : In i (sb_listeners (w_buf wd))) by (apply (i_listen _ I); exists p; split; auto).
  pose proof (remove_nat_some _ _ Hin). destruct (remove_nat i (sb_listeners (w_buf wd))) as [l|]; [|congruence]. ob.
  set (b := set_listeners (w_buf wd) l). assert (K : bok b) by (apply bok_listeners, I).
  assert (X1 : exists b1 m1, (if p_writer_handle p then check true; remove_writer b else Some (b, [])) = Some (b1, m1) /\ bok b1 /\ sb_readers b1 = sb_readers b).
  { destruct (p_writer_handle p) eqn:Hw; [|eexists _, _; split; [reflexivity|]; split; [exact K|reflexivity]]. rewrite assert_true by reflexivity.
    rewrite rem_writer_eq. rewrite assert_true by (apply Z.leb_le; cbn; rewrite (i_writers _ I); apply (count_pos _ _ i p); auto).
    destruct (refresh_count b 0 (-1) K) as (b1 & m1 & E1 & K1 & R & _). exists b1, m1. split; [exact E1|]. split; [exact K1|].
    destruct R as (_ & _ & _ & -> & _). lia. }
  destruct X1 as (b1 & m1 & E1 & K1 & Rr). rewrite E1. ob.
  assert (X2 : exists b2 m2, (if p_reader_handle p then check true; remove_reader b1 else Some (b1, [])) = Some (b2, m2)).
  { destruct (p_reader_handle p) eqn:Hr; [|eauto]. rewrite assert_true by reflexivity.
    rewrite rem_reader_eq. rewrite assert_true by (apply Z.leb_le; rewrite Rr; cbn; rewrite (i_readers _ I); apply (count_pos _ _ i p); auto).
    destruct (refresh_count b1 (-1) 0 K1) as (b2 & m2 & E2 & _). eauto. }
  destruct X2 as (b2 & m2 & E2). rewrite E2. ob. discriminate.
Qed.

(** * Steps and runs *)
Lemma clean_unblocked (o : pop_ B) : clean o -> unblocked o.
Proof. destruct o; cbn; auto. intros ->. cbn. tauto. Qed.
Lemma step_inv PB wd o wd' x : (0 < PB)%nat -> inv wd -> unblocked o -> pipe_step PB wd o = Some (wd', x) ->
  inv wd' /\ capacity wd' = capacity wd.
Proof.
  intros HP I U E. destruct o as [r w d|i|i d|i w n|i m orc]; cbn [pipe_step] in E.
  - destruct (connect wd r w d) eqn:E1; [|discriminate]. ob_in E. inversion E; subst. destruct (connect_ok _ _ _ _ _ I E1) as (H & _ & _ & C & _). auto.
  - destruct (close wd i) eqn:E1; [|discriminate]. ob_in E. inversion E; subst. destruct (close_ok _ _ _ I E1) as (H & _ & _ & C & _). auto.
  - unfold set_direct in E. destruct (nth_error (w_pipes wd) i) as [p|] eqn:Ep; [|discriminate]. ob_in E. ob_in E. inversion E; subst.
    split; [|reflexivity]. apply (inv_mode (w_buf wd) (w_pipes wd) i p d (p_wmode p)); [destruct wd; exact I|exact Ep].
  - destruct (readv wd i w n) as [[[w1 r1] o1]|] eqn:E1; [|discriminate]. ob_in E. inversion E; subst.
    destruct (readv_inv _ _ _ _ _ _ _ I E1 U) as (H & C & _). auto.
  - destruct (writev PB wd i m orc) as [[w1 r1]|] eqn:E1; [|discriminate]. ob_in E. inversion E; subst.
    destruct (writev_inv _ _ _ _ _ _ _ HP I E1) as (H & C & _). auto.
Qed.
Lemma step_total' PB wd o : (0 < PB)%nat -> inv wd -> valid_on wd o -> pipe_step PB wd o <> None.
Proof.
  intros HP I V. destruct o as [r w d|i|i d|i w n|i m orc]; cbn [pipe_step valid_on] in *.
  - pose proof (connect_total wd r w d I V). destruct (connect wd r w d); [ob; discriminate|congruence].
  - destruct V as (p & O). pose proof (close_total wd i p I O). destruct (close wd i); [ob; discriminate|congruence].
  - destruct V as (p & Ep & _). unfold set_direct. rewrite Ep. ob. discriminate.
  - destruct V as ((p & O) & NB). pose proof (readv_total wd i w n p I O NB). destruct (readv wd i w n) as [[[? ?] ?]|]; [ob; discriminate|congruence].
  - destruct V as (p & O). pose proof (writev_total PB wd i m orc p HP I O). destruct (writev PB wd i m orc) as [[? ?]|]; [ob; discriminate|congruence].
Qed.
Lemma new_inv chunk mx wd : (0 < chunk)%nat -> world_new chunk mx = Some wd -> inv wd /\ synced wd /\ held wd = [] /\ capacity wd = mx.
Proof.
  intros HC E. unfold world_new, sb_new, assert_then in E. destruct (Nat.eqb_spec mx 0) as [Z|Z]; cbn in E; [discriminate|].
  inversion E; subst; clear E. split; [|split; [|split; reflexivity]].
  - split; cbn; try reflexivity; [split; cbn; [apply wf_new|exact HC|constructor|constructor|lia|lia]| |constructor|].
    + intros i. split; [intros []|]. intros (p & Ep & _). destruct i; discriminate.
    + intros i p Ep. destruct i; discriminate.
  - split; cbn.
    + unfold fresh, has_data, has_chunks, num_bytes. cbn. rewrite Nat.sub_0_r. destruct mx; [congruence|reflexivity].
    + intros i p [].
Qed.
(** A clean step *)
Lemma readv_closed wd i n p : inv wd -> nth_error (w_pipes wd) i = Some p -> p_closed p = true -> p_read p = true ->
  forall w, readv wd i w n = None.
Proof.
  intros I Ep C R w. unfold readv. rewrite Ep. ob. rewrite R. cbn [negb]. destruct (i_pok _ I i p Ep) as (Pb & _).
  rewrite Pb, C. reflexivity.
Qed.
Lemma bytes_stream (l : list B) : bytes_of (map IByte l) = l.
Proof. unfold bytes_of. induction l as [|x l IH]; cbn; [reflexivity|]. now rewrite IH. Qed.
Lemma bytes_pkts (ps : list (list B)) : bytes_of (map IPkt ps) = concat ps.
Proof. unfold bytes_of. induction ps as [|x l IH]; cbn; [reflexivity|]. now rewrite IH. Qed.
Lemma packets_prefix PB : forall fuel sp (l : list B), concat (packets fuel PB sp l) = firstn (length (concat (packets fuel PB sp l))) l /\
  (length (concat (packets fuel PB sp l)) <= length l)%nat.
Proof.
  induction fuel as [|fuel IH]; intros sp l; [cbn; split; [reflexivity|lia]|]. destruct l as [|x r]; [cbn; split; [reflexivity|lia]|].
  set (l := x :: r). change (packets (S fuel) PB sp l) with
    (if Nat.leb (length (firstn PB l)) sp then firstn PB l :: packets fuel PB (sp - length (firstn PB l)) (skipn PB l) else []).
  destruct (Nat.leb (length (firstn PB l)) sp); [|cbn [concat length]; rewrite firstn_O; split; [reflexivity|lia]]. cbn [concat].
  destruct (IH (sp - length (firstn PB l))%nat (skipn PB l)) as (H1 & H2).
  set (y := concat (packets fuel PB (sp - length (firstn PB l)) (skipn PB l))) in *. rewrite app_length.
  split.
  - rewrite H1 at 1. rewrite <- (firstn_skipn PB l) at 4. rewrite firstn_app_2. reflexivity.
  - rewrite skipn_length in H2. rewrite firstn_length in *. lia.
Qed.
Lemma step_clean PB wd o wd' x : (0 < PB)%nat -> inv wd -> clean o -> pipe_step PB wd o = Some (wd', x) ->
  (synced wd -> synced wd') /\ exists add rem, puts o x add /\ gets o x rem /\ held wd ++ add = rem ++ held wd'.
Proof.
  intros HP I U E. destruct o as [r w d|i|i d|i w n|i m orc]; cbn [pipe_step] in E.
  - destruct (connect wd r w d) eqn:E1; [|discriminate]. ob_in E. inversion E; subst. destruct (connect_ok _ _ _ _ _ I E1) as (_ & S & Hh & _).
    split; [exact S|]. exists [], []. cbn. rewrite app_nil_r. auto.
  - destruct (close wd i) eqn:E1; [|discriminate]. ob_in E. inversion E; subst. destruct (close_ok _ _ _ I E1) as (_ & S & Hh & _).
    split; [exact S|]. exists [], []. cbn. rewrite app_nil_r. auto.
  - unfold set_direct in E. destruct (nth_error (w_pipes wd) i) as [p|] eqn:Ep; [|discriminate]. ob_in E. ob_in E. inversion E; subst.
    split.
    + intros (S1 & A). split; cbn; [exact S1|]. apply (aligned_mode _ _ i p d (p_wmode p)); auto.
    + exists [], []. cbn. rewrite app_nil_r. auto.
  - cbn in U. subst w. destruct (readv wd i (slice n) n) as [[[w1 r1] o1]|] eqn:E1; [|discriminate]. ob_in E. inversion E; subst.
    destruct (nth_error (w_pipes wd) i) as [p|] eqn:Ep; [|unfold readv in E1; rewrite Ep in E1; discriminate].
    destruct (p_read p) eqn:R.
    2: { unfold readv in E1. rewrite Ep in E1. ob_in E1. rewrite R in E1. cbn in E1. inversion E1; subst. split; [auto|].
         exists [], []. cbn. rewrite app_nil_r. auto. }
    destruct (p_closed p) eqn:C; [rewrite (readv_closed wd i n p I Ep C R) in E1; discriminate|].
    destruct (readv_clean wd i n p I (conj Ep C) R) as (w2 & r2 & o2 & E2 & S & (y & Y) & Wb & Ok).
    rewrite E1 in E2. inversion E2; subst. split; [exact S|].
    destruct r2 as [k|e].
    + assert (Hk : inl k = inl (length o2)) by (apply Ok; discriminate). injection Hk as ->.
      unfold read_result in Y. destruct (held wd) as [|[z|q] l] eqn:Eh.
      * destruct Y as (_ & -> & ->). exists [], []. cbn. auto 6.
      * destruct Y as (Eo & _ & Ea). exists [], (map IByte o2). split; [reflexivity|]. split; [cbn; auto|].
        rewrite app_nil_r, Ea.
        assert (Lp : forall (L : list (item B)) k, map IByte (firstn k (leading L)) ++ skipn (length (firstn k (leading L))) L = L).
        { induction L as [|[c|c] L IH]; intros k; destruct k; cbn; try reflexivity. f_equal. apply IH. }
        rewrite Eo. symmetry. apply Lp.
      * destruct Y as (Eo & _ & Ea). exists [], [IPkt q]. split; [reflexivity|]. split; [|rewrite app_nil_r, Ea; reflexivity].
        cbn. split; [reflexivity|]. right. exists q. split; [reflexivity|]. exists (skipn n q). rewrite Eo. symmetry. apply firstn_skipn.
    + assert (He : inr e = @inr nat perrno EWOULDBLOCK).
      { destruct e; try reflexivity; specialize (Ok ltac:(discriminate)); discriminate. }
      destruct Wb as (Wb & _). specialize (Wb He). destruct Wb as (Eh & _). rewrite Eh in Y. destruct Y as (_ & -> & Ea).
      exists [], []. rewrite Eh, Ea. cbn. auto.
  - cbn in U. destruct m as [l len]. cbn in U. subst len.
    destruct (writev PB wd i (mkMem l (length l)) orc) as [[w1 r1]|] eqn:E1; [|discriminate]. ob_in E. inversion E; subst.
    destruct (nth_error (w_pipes wd) i) as [p|] eqn:Ep; [|unfold writev in E1; rewrite Ep in E1; discriminate].
    destruct (p_write p) eqn:R.
    2: { unfold writev in E1. rewrite Ep in E1. ob_in E1. rewrite R in E1. cbn in E1. inversion E1; subst. split; [auto|].
         exists [], []. cbn. rewrite app_nil_r. auto. }
    destruct (p_closed p) eqn:C.
    { unfold writev in E1. rewrite Ep in E1. ob_in E1. rewrite R in E1. cbn [negb] in E1. destruct (i_pok _ I i p Ep) as (Pb & _).
      rewrite Pb, C in E1. discriminate. }
    destruct (writev_clean PB wd i l orc p HP I (conj Ep C) R) as (w2 & r2 & E2 & Sy & Wp & Wn & Wy).
    rewrite E1 in E2. inversion E2; subst. split; [exact Sy|].
    destruct (Z.eq_dec (sb_readers (w_buf wd)) 0) as [Z0|NZ].
    + assert (Nr : ~ has_reader wd) by (apply (has_reader_count wd I); now apply Z.eqb_eq).
      rewrite (Wn Nr). rewrite (proj2 Wp Nr). exists [], []. cbn. rewrite app_nil_r. auto.
    + assert (Hr : has_reader wd).
      { pose proof (count_le isr (w_pipes wd)). rewrite (i_readers _ I) in NZ.
        destruct (count_ex _ _ NZ) as (j & q & Hj & Hq). unfold isr in Hq. apply andb_prop in Hq as [Q1 Q2]. apply negb_true_iff in Q2.
        exists j, q. unfold open_at. auto. }
      destruct (Wy Hr) as (added & Ea & Pk & St). exists added, []. split; [|split; [reflexivity|rewrite Ea; reflexivity]].
      assert (Dec : packet_mode wd p \/ ~ packet_mode wd p).
      { unfold packet_mode. destruct (p_direct p); [|right; intros (X & _); discriminate].
        destruct (p_wmode p); [|auto]. destruct (held wd); [auto|]. right. intros (_ & [X|X]); discriminate. }
      destruct Dec as [D|D].
      * destruct (Pk D) as (Ad & Er). cbn [puts]. set (pk := packets (S (length l)) PB (room wd) l) in *.
        destruct (packets_prefix PB (S (length l)) (room wd) l) as (P1 & P2). fold pk in P1, P2.
        assert (Eb : bytes_of added = concat pk) by (rewrite Ad; apply bytes_pkts).
        destruct r2 as [k|e].
        -- assert (Hk : k = length (concat pk)).
           { destruct l as [|z l]; [unfold pk; cbn; congruence|]. destruct pk; [destruct (Nat.ltb _ _); discriminate|]. now inversion Er. }
           subst k. cbn [m_bytes]. rewrite Eb. split; [exact P1|exact P2].
        -- destruct l as [|z l]; [discriminate|]. destruct pk; [|discriminate]. rewrite Ad. reflexivity.
      * destruct (St D) as (Ad & Er). cbn [puts]. destruct r2 as [k|e].
        -- assert (Hk : k = Nat.min (room wd) (length l)).
           { destruct l as [|z l]; [inversion Er; cbn; lia|]. destruct (Nat.eqb (room wd) 0); [discriminate|]. now inversion Er. }
           subst k. cbn [m_bytes]. rewrite Ad, bytes_stream. split; [reflexivity|lia].
        -- destruct l as [|z l]; [discriminate|]. destruct (Nat.eqb_spec (room wd) 0) as [Z|]; [|discriminate]. rewrite Ad, Z. reflexivity.
Qed.

Lemma run_inv PB ops : (0 < PB)%nat -> Forall unblocked ops -> forall wd wd' outs, inv wd -> pipe_run PB wd ops = Some (wd', outs) ->
  inv wd' /\ capacity wd' = capacity wd.
Proof.
  intros HP U. induction U as [|o ops Uo U IH]; intros wd wd' outs I E; cbn [pipe_run] in E; [inversion E; subst; auto|].
  destruct (pipe_step PB wd o) as [[w1 x]|] eqn:E1; [|discriminate]. ob_in E.
  destruct (pipe_run PB w1 ops) as [[w2 xs]|] eqn:E2; [|discriminate]. ob_in E. inversion E; subst.
  destruct (step_inv _ _ _ _ _ HP I Uo E1) as (I1 & C1). destruct (IH _ _ _ I1 E2) as (I2 & C2). split; [exact I2|congruence].
Qed.
Lemma run_clean PB ops : (0 < PB)%nat -> Forall clean ops -> forall wd wd' outs, inv wd -> pipe_run PB wd ops = Some (wd', outs) ->
  (synced wd -> synced wd') /\
  exists adds rems, length outs = length ops /\ Forall2 (fun ox a => puts (fst ox) (snd ox) a) (combine ops outs) adds /\
    Forall2 (fun ox r => gets (fst ox) (snd ox) r) (combine ops outs) rems /\
    held wd ++ concat adds = concat rems ++ held wd'.
Proof.
  intros HP U. induction U as [|o ops Uo U IH]; intros wd wd' outs I E; cbn [pipe_run] in E.
  - inversion E; subst. split; [auto|]. exists [], []. cbn. rewrite app_nil_r. auto.
  - destruct (pipe_step PB wd o) as [[w1 x]|] eqn:E1; [|discriminate]. ob_in E.
    destruct (pipe_run PB w1 ops) as [[w2 xs]|] eqn:E2; [|discriminate]. ob_in E. inversion E; subst.
    destruct (step_inv _ _ _ _ _ HP I (clean_unblocked _ Uo) E1) as (I1 & _).
    destruct (step_clean _ _ _ _ _ HP I Uo E1) as (S1 & a & r & Pa & Gr & Eq).
    destruct (IH _ _ _ I1 E2) as (S2 & adds & rems & L & F1 & F2 & Eq2).
    split; [auto|]. exists (a :: adds), (r :: rems). cbn [combine length concat]. split; [now rewrite L|].
    split; [constructor; auto|]. split; [constructor; auto|].
    rewrite app_assoc, Eq, <- app_assoc, Eq2, app_assoc. reflexivity.
Qed.

(** * Stream-only histories *)
Definition nodirect ps : Prop := Forall (fun p => p_direct p = false) ps.
Definition allbytes (l : list (item B)) : Prop := Forall (fun i => match i with IByte _ => True | _ => False end) l.
Lemma nodirect_set ps i p : nodirect ps -> p_direct p = false -> nodirect (set_pipe ps i p).
Proof. intros H D. revert i. induction H as [|x l Hx H IH]; intros [|i]; cbn; constructor; auto; apply IH. Qed.
Lemma nodirect_run ms : forall ps, nodirect ps -> nodirect (run_queue ps ms).
Proof.
  induction ms as [|m ms IH]; intros ps H; cbn; [exact H|]. apply IH. destruct m as [[[j s] ch] g]. cbn.
  destruct (nth_error ps j) as [q|] eqn:Ej; [|exact H]. destruct (monitored q ch || g); [|exact H]. apply nodirect_set; [exact H|].
  destruct (core_proj _ _ (align_core q s)) as (_ & _ & -> & _). unfold nodirect in H. rewrite Forall_forall in H. apply H. eapply nth_error_In, Ej.
Qed.
Lemma step_nodirect PB wd o wd' x : nodirect (w_pipes wd) -> stream_only o -> pipe_step PB wd o = Some (wd', x) -> nodirect (w_pipes wd').
Proof.
  intros H U E. destruct o as [r w d|i|i d|i w n|i m orc]; cbn [pipe_step stream_only] in *.
  - subst d. unfold connect in E. cbv zeta in E. destruct (if w then _ else _) as [[b1 m1]|]; [|discriminate]. ob_in E.
    destruct (if r then _ else _) as [[b2 m2]|]; [|discriminate]. ob_in E. ob_in E. inversion E; subst. cbn. apply nodirect_run.
    apply Forall_app. split; [exact H|]. constructor; [reflexivity|constructor].
  - unfold close in E. destruct (nth_error (w_pipes wd) i) as [p|] eqn:Ep; [|discriminate]. ob_in E. cbv zeta in E.
    destruct (if p_buffer p then _ else _) as [b0|]; [|discriminate]. ob_in E.
    destruct (if p_writer_handle p then _ else _) as [[b1 m1]|]; [|discriminate]. ob_in E.
    destruct (if p_reader_handle p then _ else _) as [[b2 m2]|]; [|discriminate]. ob_in E. ob_in E. inversion E; subst. cbn.
    apply nodirect_run, nodirect_set; [exact H|]. cbn. unfold nodirect in H. rewrite Forall_forall in H. apply H. eapply nth_error_In, Ep.
  - subst d. unfold set_direct in E. destruct (nth_error (w_pipes wd) i) as [p|] eqn:Ep; [|discriminate]. ob_in E. ob_in E. inversion E; subst.
    cbn. apply nodirect_set; [exact H|reflexivity].
  - unfold readv in E. destruct (nth_error (w_pipes wd) i) as [p|] eqn:Ep; [|discriminate]. ob_in E.
    destruct (negb (p_read p)); [ob_in E; inversion E; subst; exact H|]. unfold assert_then in E. destruct (p_buffer p); [|discriminate].
    destruct (sb_read (w_buf wd) w) as [[[[b ms] r] out]|]; [|discriminate]. ob_in E. ob_in E. inversion E; subst. cbn. now apply nodirect_run.
  - unfold writev in E. destruct (nth_error (w_pipes wd) i) as [p|] eqn:Ep; [|discriminate]. ob_in E.
    destruct (negb (p_write p)); [ob_in E; inversion E; subst; exact H|]. unfold assert_then in E. destruct (p_buffer p); [|discriminate].
    destruct (sb_readers (w_buf wd) =? 0); [ob_in E; inversion E; subst; exact H|].
    match type of E with context [obind (match ?z with Stream => ?a | Packet => ?c end)] => set (md := z) in E; destruct (match md with Stream => a | Packet => c end) as [[[b ms] r]|] end; [|discriminate].
    ob_in E. ob_in E. inversion E; subst. cbn. apply nodirect_run, nodirect_set; [exact H|]. cbn.
    unfold nodirect in H. rewrite Forall_forall in H. apply H. eapply nth_error_In, Ep.
Qed.
Lemma bytes_app (a c : list (item B)) : bytes_of (a ++ c) = bytes_of a ++ bytes_of c.
Proof. apply flat_map_app. Qed.
Lemma step_stream PB wd o wd' x : (0 < PB)%nat -> inv wd -> clean o -> stream_only o -> nodirect (w_pipes wd) -> allbytes (held wd) ->
  pipe_step PB wd o = Some (wd', x) -> allbytes (held wd') /\ bytes_of (held wd) ++ sent o x = received x ++ bytes_of (held wd').
Proof.
  intros HP I C U N A E. destruct (step_clean _ _ _ _ _ HP I C E) as (_ & add & rem & P & G & Eq).
  assert (Ab : allbytes add).
  { destruct o as [r w d|i|i d|i w n|i m orc]; cbn [puts] in P; try (subst; constructor).
    destruct m as [l len]. cbn in C. subst len. cbn [pipe_step] in E.
    destruct (writev PB wd i (mkMem l (length l)) orc) as [[w1 r1]|] eqn:E1; [|discriminate]. ob_in E. inversion E; subst. cbn in G. subst rem.
    destruct r1 as [k|e]; [|subst; constructor].
    assert (Gd : exists p, open_at wd i p /\ p_write p = true).
    { unfold writev in E1. destruct (nth_error (w_pipes wd) i) as [p|] eqn:Ep; [|discriminate]. ob_in E1.
      exists p. destruct (p_write p); [|discriminate]. split; [split; [exact Ep|]|reflexivity]. cbn in E1.
      destruct (i_pok _ I i p Ep) as (Pb & _). rewrite Pb in E1. destruct (p_closed p); [discriminate|reflexivity]. }
    destruct Gd as (p & O & W). destruct (writev_clean PB wd i l orc p HP I O W) as (w2 & r2 & E2 & _ & Wp & _ & Wy).
    rewrite E1 in E2. inversion E2; subst.
    assert (Hr : has_reader wd).
    { destruct (Z.eq_dec (sb_readers (w_buf wd)) 0) as [Z0|NZ].
      - apply Z.eqb_eq in Z0. apply (has_reader_count wd I) in Z0. apply Wp in Z0. discriminate.
      - rewrite (i_readers _ I) in NZ. destruct (count_ex _ _ NZ) as (j & q & Hj & Hq).
        unfold isr in Hq. apply andb_prop in Hq as [Q1 Q2]. apply negb_true_iff in Q2. exists j, q. unfold open_at. auto. }
    destruct (Wy Hr) as (add' & Ea & _ & St). cbn in Eq. rewrite Ea in Eq. apply app_inv_head in Eq. subst add'.
    destruct St as (-> & _).
    { intros (D & _). destruct O as (Ep & _). unfold nodirect in N. rewrite Forall_forall in N.
      rewrite (N p) in D by (eapply nth_error_In, Ep). discriminate. }
    apply Forall_forall. intros y Hy. apply in_map_iff in Hy as (z & <- & _). exact Logic.I. }
  assert (A2 : allbytes (rem ++ held wd')) by (rewrite <- Eq; apply Forall_app; auto).
  apply Forall_app in A2 as [Ar Ah]. split; [exact Ah|].
  pose proof (f_equal bytes_of Eq) as Eb. rewrite !bytes_app in Eb.
  assert (S1 : bytes_of add = sent o x).
  { destruct o as [r w d|i|i d|i w n|i m orc]; cbn [puts sent] in *; try (subst; reflexivity).
    destruct x as [|r out|[k|e]]; [subst; reflexivity|subst; reflexivity|apply P|subst; reflexivity]. }
  assert (S2 : bytes_of rem = received x).
  { destruct x as [|[k|e] out|r]; cbn [received].
    - destruct o; cbn in G; subst; reflexivity.
    - destruct o as [r w d|i|i d|i w n|i m orc]; cbn [pipe_step] in E.
      + destruct (connect wd r w d); discriminate.
      + destruct (close wd i); discriminate.
      + destruct (set_direct wd i d); discriminate.
      + cbn in G. destruct G as (-> & [->|(p & -> & _)]); [apply bytes_stream|]. inversion Ar as [|? ? F _]. destruct F.
      + destruct (writev PB wd i m orc) as [[? ?]|]; discriminate.
    - destruct o; cbn in G; destruct G as (-> & ->); reflexivity.
    - destruct o; cbn in G; subst; reflexivity. }
  now rewrite <- S1, <- S2.
Qed.
Lemma run_stream PB ops : (0 < PB)%nat -> Forall clean ops -> Forall stream_only ops -> forall wd wd' outs, inv wd -> nodirect (w_pipes wd) -> allbytes (held wd) ->
  pipe_run PB wd ops = Some (wd', outs) ->
  bytes_of (held wd) ++ concat (map (fun ox => sent (fst ox) (snd ox)) (combine ops outs)) = concat (map received outs) ++ bytes_of (held wd').
Proof.
  intros HP. induction ops as [|o ops IH]; intros C U wd wd' outs I N A E; cbn [pipe_run] in E.
  - inversion E; subst. cbn. apply app_nil_r.
  - inversion C as [|? ? Co C']; subst. inversion U as [|? ? Uo U']; subst.
    destruct (pipe_step PB wd o) as [[w1 x]|] eqn:E1; [|discriminate]. ob_in E.
    destruct (pipe_run PB w1 ops) as [[w2 xs]|] eqn:E2; [|discriminate]. ob_in E. inversion E; subst.
    destruct (step_inv _ _ _ _ _ HP I (clean_unblocked _ Co) E1) as (I1 & _).
    destruct (step_stream _ _ _ _ _ HP I Co Uo N A E1) as (A1 & Eq1).
    specialize (IH C' U' _ _ _ I1 (step_nodirect _ _ _ _ _ N Uo E1) A1 E2).
    cbn [combine map concat fst snd]. rewrite app_assoc, Eq1, <- app_assoc, IH, app_assoc. reflexivity.
Qed.

(** * Main statements *)
Section Main.
Variables (PB chunk mx : nat) (w0 wd : world B) (ops : list (pop_ B)) (outs : list (pout B)).
Hypotheses (HP : (0 < PB)%nat) (HC : (0 < chunk)%nat) (E0 : world_new chunk mx = Some w0) (E : pipe_run PB w0 ops = Some (wd, outs)).
Lemma reach_inv : Forall unblocked ops -> inv wd /\ capacity wd = mx.
Proof using All.
  intros U. destruct (new_inv _ _ _ HC E0) as (I & _ & _ & C). destruct (run_inv _ _ HP U _ _ _ I E) as (I' & C'). split; [exact I'|congruence].
Qed.
Lemma reach_clean : Forall clean ops -> inv wd /\ capacity wd = mx /\ synced wd.
Proof using All.
  intros U. destruct reach_inv as (I' & C'); [eapply Forall_impl; [apply clean_unblocked|exact U]|].
  destruct (new_inv _ _ _ HC E0) as (I & S & _ & C). destruct (run_clean _ _ HP U _ _ _ I E) as (Sy & _). auto.
Qed.
Lemma capacity_main : Forall unblocked ops -> (total_bytes (held wd) <= mx)%nat.
Proof using All. intros U. destruct (reach_inv U) as (I & <-). apply (ok_len _ (i_buf _ I)). Qed.
Lemma status_main : Forall clean ops -> forall i p, nth_error (w_pipes wd) i = Some p ->
  (p_readable p = true <-> p_closed p = false /\ p_read p = true /\ (held wd <> [] \/ ~ has_writer wd)) /\
  (p_writable p = true <-> p_closed p = false /\ p_write p = true /\ ((total_bytes (held wd) < mx)%nat \/ ~ has_reader wd)).
Proof using All.
  intros U i p Ep. destruct (reach_clean U) as (I & Cap & S1 & A). destruct (i_pok _ I i p Ep) as (_ & _ & _ & P4 & P5).
  destruct (p_closed p) eqn:C.
  { unfold isr, isw in *. rewrite C in *. cbn in *. rewrite !andb_false_r in *. rewrite (P4 eq_refl), (P5 eq_refl).
    split; (split; [discriminate|intros (X & _); discriminate]). }
  assert (Hin : In i (sb_listeners (w_buf wd))) by (apply (i_listen _ I); exists p; split; auto).
  specialize (A i p Hin Ep). unfold aligned, align_state in A. rewrite C in A.
  pose proof (f_equal p_readable A) as A1. pose proof (f_equal p_writable A) as A2. cbn in A1, A2.
  rewrite S1 in A1, A2. unfold fresh in A1, A2. cbn [bs_readable bs_writable bs_no_readers bs_no_writers] in A1, A2.
  pose proof (has_reader_count wd I) as HR. pose proof (has_writer_count wd I) as HW.
  pose proof (bok_has _ (i_buf _ I)) as HD. fold (held wd) in HD. pose proof (bok_num _ (i_buf _ I)) as HN. fold (held wd) in HN.
  unfold capacity in Cap. rewrite Cap, HN in A2. rewrite HD in A1.
  split.
  - rewrite <- A1. destruct (p_read p) eqn:R.
    + rewrite orb_true_iff, HW. destruct (held wd); split.
      * intros [X|X]; [discriminate|auto].
      * intros (_ & _ & [X|X]); [congruence|auto].
      * intros _. split; [reflexivity|]. split; [reflexivity|]. left. discriminate.
      * auto.
    + rewrite P4 by (unfold isr; now rewrite R). split; [discriminate|]. intros (_ & X & _). discriminate.
  - rewrite <- A2. destruct (p_write p) eqn:R.
    + rewrite orb_true_iff, HR, Nat.ltb_lt. split.
      * intros [X|X]; (split; [reflexivity|]; split; [reflexivity|]); [left; lia|auto].
      * intros (_ & _ & [X|X]); [left; lia|auto].
    + rewrite P5 by (unfold isw; now rewrite R). split; [discriminate|]. intros (_ & X & _). discriminate.
Qed.
Lemma read_main' : Forall unblocked ops -> forall i p n, open_at wd i p -> p_read p = true ->
  exists wd' r out, readv wd i (slice n) n = Some (wd', r, out) /\
    (exists x, read_result (held wd) n x out (held wd')) /\
    (r = inr EWOULDBLOCK <-> held wd = [] /\ n <> O /\ has_writer wd) /\
    (r <> inr EWOULDBLOCK -> r = inl (length out)).
Proof using All.
  intros U i p n O R. destruct (reach_inv U) as (I & _). destruct (readv_clean wd i n p I O R) as (wd' & r & out & H1 & _ & H). eauto.
Qed.
Lemma eof_main : Forall unblocked ops -> forall i p n wd' out, open_at wd i p -> p_read p = true -> (0 < n)%nat ->
  (readv wd i (slice n) n = Some (wd', inl O, out) -> held wd = [] /\ ~ has_writer wd) /\
  (held wd = [] -> ~ has_writer wd -> exists w1, readv wd i (slice n) n = Some (w1, inl O, []) /\ held w1 = []).
Proof using All.
  intros U i p n wd' out O R Hn. destruct (reach_inv U) as (I & _). destruct (readv_clean wd i n p I O R) as (w1 & r & out1 & H1 & _ & (x & X) & Wb & Ok).
  split.
  - intros H. rewrite H1 in H. inversion H; subst w1 r out1. specialize (Ok ltac:(discriminate)). injection Ok as Ok.
    assert (Eh : held wd = []).
    { pose proof (ok_pkt _ (i_buf _ I)) as P. fold (held wd) in P. unfold read_result in X. destruct (held wd) as [|[y|q] l]; [reflexivity| |].
      - destruct X as (-> & _). destruct n; [lia|]. discriminate.
      - destruct X as (-> & _). inversion P as [|? ? P1 _]; subst. destruct q as [|z q]; [destruct P1|]. destruct n; [lia|]. discriminate. }
    split; [exact Eh|]. intros Hw. destruct Wb as (_ & Wb). assert (X0 : inl 0%nat = @inr nat perrno EWOULDBLOCK) by (apply Wb; split; [exact Eh|split; [lia|exact Hw]]). discriminate.
  - intros Eh Nw. rewrite Eh in X. destruct X as (_ & -> & Ea). exists w1. rewrite H1. rewrite Ok; [auto|]. intros Hr. apply Wb in Hr. tauto.
Qed.
Lemma write_main : Forall unblocked ops -> forall i p l orc, open_at wd i p -> p_write p = true ->
  exists wd' r, writev PB wd i (mkMem l (length l)) orc = Some (wd', r) /\
    (r = inr EPIPE <-> ~ has_reader wd) /\ (~ has_reader wd -> wd' = wd) /\
    (has_reader wd -> exists added, held wd' = held wd ++ added /\
       (packet_mode wd p -> packet_outcome PB wd l r added) /\ (~ packet_mode wd p -> stream_outcome wd l r added)).
Proof using All.
  intros U i p l orc O R. destruct (reach_inv U) as (I & _). destruct (writev_clean PB wd i l orc p HP I O R) as (wd' & r & H1 & _ & H). eauto.
Qed.
Lemma pfifo_main : Forall clean ops -> exists adds rems, length outs = length ops /\
  Forall2 (fun ox a => puts (fst ox) (snd ox) a) (combine ops outs) adds /\
  Forall2 (fun ox r => gets (fst ox) (snd ox) r) (combine ops outs) rems /\
  concat adds = concat rems ++ held wd.
Proof using All.
  intros U. destruct (new_inv _ _ _ HC E0) as (I & S & H0 & C). destruct (run_clean _ _ HP U _ _ _ I E) as (_ & H). rewrite H0 in H. exact H.
Qed.
Lemma stream_main : Forall clean ops -> Forall stream_only ops ->
  concat (map (fun ox => sent (fst ox) (snd ox)) (combine ops outs)) = concat (map received outs) ++ bytes_of (held wd).
Proof using All.
  intros U S. destruct (new_inv _ _ _ HC E0) as (I & _ & H0 & C).
  pose proof (run_stream PB ops HP U S w0 wd outs I) as R. rewrite H0 in R. cbn in R. apply R; [|constructor|exact E].
  unfold world_new, sb_new, assert_then in E0. destruct (negb _); [|discriminate]. ob_in E0. inversion E0; subst. constructor.
Qed.
Lemma pno_panic_main : Forall unblocked ops -> forall o, valid_on wd o -> pipe_step PB wd o <> None.
Proof using All. intros U o V. destruct (reach_inv U) as (I & _). now apply step_total'. Qed.
End Main.
End Proofs.

(** * Findings *)
Lemma fault_write_main : exists w0 (ops : list (pop_ nat)) wd outs e p,
  world_new 4 8 = Some w0 /\ pipe_run 4 w0 ops = Some (wd, outs) /\ last outs PNone = PWriteRes (inr (EIO e)) /\
  bytes_of (held wd) = [7; 8]%nat /\ open_at wd 0 p /\ p_read p = true /\ p_readable p = false.
Proof.
  eexists _, [PConnect true false false; PConnect false true false; PWrite 1 (mkMem [7; 8]%nat 3) []], _, _, _, _.
  split; [vm_compute; reflexivity|]. split; [vm_compute; reflexivity|]. vm_compute. repeat split.
Qed.
Lemma fault_read_main : exists w0 (ops : list (pop_ nat)) wd outs p,
  world_new 4 8 = Some w0 /\ pipe_run 4 w0 ops = Some (wd, outs) /\
  last outs PNone = PReadRes (inr (EIO OtherErr)) [] /\
  concat (map (fun ox => sent (fst ox) (snd ox)) (combine ops outs)) = [7; 8]%nat /\
  concat (map received outs) = [] /\ held wd = [] /\ open_at wd 0 p /\ p_readable p = true /\
  exists w', readv wd 0 (slice 5) 5 = Some (w', inr EWOULDBLOCK, []).
Proof.
  eexists _, [PConnect true false false; PConnect false true true; PWrite 1 (mkMem [7; 8]%nat 2) []; PRead 0 (mkW [WErr] 0) 5], _, _, _.
  split; [vm_compute; reflexivity|]. split; [vm_compute; reflexivity|]. vm_compute. do 6 (split; [auto|]).
  eexists. reflexivity.
Qed.
Lemma zero_read_main : exists w0 (ops : list (pop_ nat)) wd outs w',
  world_new 4 8 = Some w0 /\ Forall clean ops /\ pipe_run 4 w0 ops = Some (wd, outs) /\ bytes_of (held wd) = [7; 8]%nat /\
  readv wd 0 (slice 0) 0 = Some (w', inl O, []) /\ held w' = [].
Proof.
  eexists _, [PConnect true false false; PConnect false true true; PWrite 1 (mkMem [7; 8]%nat 2) []], _, _, _.
  split; [vm_compute; reflexivity|]. split; [repeat constructor|]. split; [vm_compute; reflexivity|]. split; [reflexivity|].
  split; [vm_compute; reflexivity|reflexivity].
Qed.
Lemma atomic_main : exists w0 (ops : list (pop_ nat)) wd outs l w' k,
  world_new 4 4 = Some w0 /\ Forall clean ops /\ pipe_run 4 w0 ops = Some (wd, outs) /\ (length l <= 4)%nat /\
  writev 4 wd 1 (mkMem l (length l)) [] = Some (w', inl k) /\ (0 < k < length l)%nat.
Proof.
  eexists _, [PConnect true false false; PConnect false true false; PWrite 1 (mkMem [7; 8]%nat 2) []], _, _, [1; 2; 3]%nat, _, _.
  split; [vm_compute; reflexivity|]. split; [repeat constructor|]. split; [vm_compute; reflexivity|].
  split; [cbn; lia|]. split; [vm_compute; reflexivity|]. cbn. lia.
Qed.
