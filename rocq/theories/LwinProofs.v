(** The windows and the send buffer: proofs for [LwinProps]. *)
From Coq Require Import Permutation.
From Verif Require Import Base LtcpModel LtcpSpec LtcpProofs LwinSpec.

Lemma total_perm a b : Permutation a b -> total a = total b.
Proof. induction 1; simpl; lia. Qed.

Lemma pq_push_perm p l : Permutation (pq_push p l) (p :: l).
Proof.
  induction l as [|x l IH]; simpl; [reflexivity|].
  destruct (p_seq p <? p_seq x); [reflexivity|].
  rewrite IH. apply perm_swap.
Qed.

Definition distinct (l : list pkt) : Prop := NoDup (map p_seq l).

Lemma distinct_perm a b : Permutation a b -> distinct a -> distinct b.
Proof. intros P. apply Permutation_NoDup, Permutation_map, P. Qed.

Lemma has_seq_not n l : ~ In n (map p_seq l) -> has_seq n l = false.
Proof.
  intros H. destruct (has_seq n l) eqn:E; [|reflexivity].
  apply has_seq_spec in E as (p & H1 & <-). exfalso. apply H, in_map, H1.
Qed.

Lemma filter_id {A} (f : A -> bool) l : (forall x, In x l -> f x = true) -> filter f l = l.
Proof.
  induction l as [|x l IH]; intros H; simpl; [reflexivity|].
  rewrite (H x (or_introl eq_refl)), IH; [reflexivity|]. intros y Hy. apply H. right. exact Hy.
Qed.

Lemma nodup_app_r {A} (a b : list A) : NoDup (a ++ b) -> NoDup b.
Proof. induction a as [|x a IH]; simpl; intros H; [exact H|]. inversion H; auto. Qed.

(** Taking the packet [n] out of a queue without duplicates. *)
Lemma take_perm n l p : distinct l -> find (fun x => p_seq x =? n) l = Some p ->
  Permutation l (p :: filter (fun x => negb (p_seq x =? n)) l).
Proof.
  induction l as [|x l IH]; intros D E; simpl in *; [discriminate|].
  inversion D as [|? ? D1 D2]; subst. destruct (p_seq x =? n) eqn:En; simpl.
  - injection E as <-. rewrite filter_id; [reflexivity|].
    intros y Hy. destruct (p_seq y =? n) eqn:Ey; [|reflexivity]. exfalso. apply D1.
    replace (p_seq x) with (p_seq y) by lia. apply in_map, Hy.
  - rewrite (IH D2 E) at 1. apply perm_swap.
Qed.

Lemma packet_out_perm p s : ~ In (p_seq p) (map p_seq (s_thr s)) ->
  Permutation (kept (packet_out p s)) (p :: kept s).
Proof.
  intros H. unfold packet_out. rewrite (has_seq_not _ _ H). unfold kept. simpl.
  rewrite pq_push_perm. reflexivity.
Qed.

(** What flushing leaves alone. *)
Definition same_rest (s s' : sender) : Prop :=
  s_buf s' = s_buf s /\ s_unacked s' = s_unacked s /\ s_lastwin s' = s_lastwin s
  /\ s_cwnd s' = s_cwnd s.

Lemma packet_out_rest p s : same_rest s (packet_out p s) /\ s_out (packet_out p s) = s_out s.
Proof. unfold same_rest, packet_out. destruct (has_seq _ _); simpl; auto. Qed.

Lemma retransmit_perm n s : distinct (kept s) ->
  Permutation (kept (retransmit n s)) (kept s) /\ same_rest s (retransmit n s)
  /\ s_out (retransmit n s) = s_out s.
Proof.
  intros D. unfold retransmit. destruct (find _ (s_q s)) as [p|] eqn:E;
    [|unfold same_rest; auto 10].
  set (s0 := Snd _ _ _ _ _ _ _ _ _).
  destruct (packet_out_rest p s0) as [R0 O0]. split; [|split; [exact R0|exact O0]].
  pose proof E as E0. apply find_some in E0 as [Hp Hn].
  assert (D3 : distinct (s_q s)).
  { unfold distinct, kept in *. rewrite !map_app, app_assoc in D.
    apply nodup_app_r in D. exact D. }
  pose proof (take_perm n _ p D3 E) as P.
  assert (Q : Permutation (p :: kept s0) (kept s)).
  { unfold kept, s0. simpl. rewrite !app_assoc. etransitivity; [apply Permutation_middle|].
    apply Permutation_app_head. symmetry. exact P. }
  etransitivity; [apply packet_out_perm|exact Q].
  unfold s0. simpl. intros Hin. unfold distinct, kept in D.
    apply in_map_iff in Hin as (p' & Es & Hin').
    assert (D' : distinct (p :: kept s0)).
    { eapply distinct_perm; [symmetry; exact Q|exact D]. }
    inversion D' as [|? ? D1 _]; subst. apply D1. rewrite <- Es. apply in_map.
    unfold kept, s0. simpl. apply in_or_app. auto.
Qed.

Lemma retransmits_perm lost : forall s, distinct (kept s) ->
  let s' := fold_left (fun s n => retransmit n s) lost s in
  Permutation (kept s') (kept s) /\ same_rest s s' /\ s_out s' = s_out s.
Proof.
  induction lost as [|n lost IH]; intros s D; simpl; [unfold same_rest; auto 10|].
  destruct (retransmit_perm n s D) as (P1 & R1 & O1).
  destruct (IH (retransmit n s)) as (P2 & R2 & O2).
  { eapply distinct_perm; [symmetry; exact P1|exact D]. }
  split; [rewrite P2; exact P1|]. split; [|congruence].
  unfold same_rest in *. intuition congruence.
Qed.

Lemma flush_out_lim lim b : forall thr out thr' out', Forall (fun p => 0 < plen p) thr ->
  flush_out lim b thr out = Some (thr', out') ->
  exists moved, thr = moved ++ thr' /\ out' = out ++ moved /\ Forall (fun p => p_seq p < lim) moved.
Proof.
  induction thr as [|p thr IH]; intros out thr' out' F E; simpl in E.
  - injection E as <- <-. exists []. rewrite !app_nil_r. auto.
  - inversion F as [|? ? F1 F2]; subst. destruct (buf_space b (total out)) as [sp|]; ob_in E; [|discriminate].
    destruct ((0 <? plen p) && _) eqn:Ec.
    + injection E as <- <-. exists []. rewrite !app_nil_r. auto.
    + destruct (plen p <=? sp) eqn:El; simpl in E; [|discriminate].
      destruct (IH _ _ _ F2 E) as (m & -> & -> & Fm). exists (p :: m).
      rewrite <- app_assoc. split; [reflexivity|]. split; [reflexivity|]. constructor; [lia|exact Fm].
Qed.

Lemma flush_s_perm ps lost s s' : sinv ps s -> distinct (kept s) -> flush_s lost s = Some s' ->
  Permutation (kept s') (kept s) /\ same_rest s s'
  /\ exists moved, s_out s' = s_out s ++ moved
     /\ Forall (fun p => p_seq p < s_unacked s' + Z.min (s_cwnd s') (s_lastwin s')) moved.
Proof.
  intros I D E. unfold flush_s in E. cbv zeta in E.
  destruct (retransmits_perm lost s D) as (P1 & R1 & O1).
  destruct (retransmits_inv ps lost s I) as [I1 _].
  set (s1 := fold_left _ lost s) in *. clearbody s1.
  destruct (flush_out _ _ _ _) as [[thr out]|] eqn:Ef; ob_in E; [|discriminate].
  injection E as <-.
  apply flush_out_lim in Ef as (m & Et & -> & Fm).
  - split; [|split; [exact R1|exists m; rewrite O1; auto]].
    rewrite <- P1. unfold kept. simpl. rewrite Et, <- !app_assoc.
    rewrite (app_assoc thr (s_out s1)), (app_assoc thr (s_out s1)). apply Permutation_app_swap_app.
  - apply Forall_forall. intros p Hp.
    assert (Hin : In p ps) by (apply (si_from _ _ I1), in_kept; auto).
    pose proof (si_whole _ _ I1) as W. rewrite Forall_forall in W. apply W in Hin.
    unfold whole in Hin. lia.
Qed.

Lemma sinv_fresh ps s p : sinv ps s -> p_seq p = s_next s -> ~ In (p_seq p) (map p_seq (kept s)).
Proof.
  intros I E Hin. apply in_map_iff in Hin as (q & Eq & Hq).
  apply (si_from _ _ I) in Hq. pose proof (numbered_seq _ _ (si_num _ _ I) Hq).
  pose proof (si_next _ _ I). lia.
Qed.

(** Segmenting adds the bytes and nothing else. *)
Lemma segment_perm : forall fuel bytes ps s s', (length bytes <= fuel)%nat -> sinv ps s ->
  distinct (kept s) ->
  segment fuel bytes s = Some s' ->
  distinct (kept s') /\ total (kept s') = total (kept s) + Z.of_nat (length bytes)
  /\ same_rest s s' /\ s_out s' = s_out s.
Proof.
  induction fuel as [|fuel IH]; intros bytes ps s s' L I D E.
  - destruct bytes; [|simpl in L; lia]. injection E as <-. unfold same_rest. simpl. auto 10 with zarith.
  - destruct bytes as [|b1 bytes1].
    { injection E as <-. unfold same_rest. simpl. auto 10 with zarith. }
    cbn [segment] in E. remember (b1 :: bytes1) as bytes eqn:Eb.
    cbv zeta in E.
    set (d := firstn (Z.to_nat MSS) bytes) in *. set (p := Pkt (s_next s) d) in *.
    set (s0 := Snd (s_next s + 1) (s_unacked s) (s_lastack s) (s_lastwin s) (s_cwnd s)
                   (s_thr s) (s_q s) (s_out s) (s_buf s)) in *.
    assert (Hd : (length (skipn (Z.to_nat MSS) bytes) <= fuel)%nat).
    { rewrite skipn_length. rewrite Eb in *. simpl in L |- *. unfold MSS. lia. }
    assert (Hn : ~ In (p_seq p) (map p_seq (kept s))) by (eapply sinv_fresh; [exact I|reflexivity]).
    assert (P : Permutation (kept (packet_out p s0)) (p :: kept s)).
    { rewrite packet_out_perm; [reflexivity|]. intros Hin. apply Hn. unfold kept.
      rewrite map_app, in_app_iff. left. exact Hin. }
    assert (D1 : distinct (kept (packet_out p s0))).
    { eapply distinct_perm; [symmetry; exact P|]. constructor; assumption. }
    assert (I1 : exists ps', sinv ps' (packet_out p s0)).
    { assert (Lm : (length d <= Z.to_nat MSS)%nat) by (unfold d; rewrite firstn_length; lia).
      destruct (segment_law (length d) d ps s (le_n _) I) as (m1 & s3 & E3 & I3 & _).
      exists (ps ++ m1). replace (packet_out p s0) with s3; [exact I3|].
      assert (Ld : d <> []) by (unfold d; rewrite Eb; unfold MSS; discriminate).
      unfold p. clearbody d. destruct d as [|d1 d2]; [congruence|].
      cbn [segment length] in E3. rewrite (firstn_min (d1 :: d2)) in E3 by exact Lm.
      rewrite skipn_all2 in E3 by exact Lm. destruct (length d2); cbn [segment] in E3; injection E3 as <-; reflexivity. }
    destruct I1 as (ps' & I1).
    destruct (IH _ ps' _ _ Hd I1 D1 E) as (D2 & T2 & R2 & O2).
    destruct (packet_out_rest p s0) as [R0 O0].
    split; [exact D2|]. split.
    + rewrite T2, (total_perm _ _ P). change (total (p :: kept s)) with (plen p + total (kept s)).
      unfold plen, p. cbn [p_data]. unfold d.
      rewrite <- (firstn_skipn (Z.to_nat MSS) bytes) at 3. rewrite app_length. lia.
    + destruct R0 as (Q1 & Q2 & Q3 & Q4), R2 as (Q5 & Q6 & Q7 & Q8). unfold same_rest.
      rewrite Q5, Q6, Q7, Q8, O2, Q1, Q2, Q3, Q4, O0. auto.
Qed.

Lemma write_exact ps bytes s res s' : sinv ps s -> distinct (kept s) ->
  write bytes s = Some (res, s') ->
  let n := Z.min (Z.min (Z.of_nat (length bytes)) 65535)
                 (Z.max 0 (buf_size (s_buf s) - total (kept s))) in
  res = (if (n =? 0) && negb (Z.of_nat (length bytes) =? 0) then WouldBlock else Wrote n)
  /\ total (kept s') = total (kept s) + n
  /\ distinct (kept s') /\ same_rest s s'
  /\ exists moved, s_out s' = s_out s ++ moved
     /\ Forall (fun p => p_seq p < s_unacked s' + Z.min (s_cwnd s') (s_lastwin s')) moved.
Proof.
  intros I D E n. unfold write in E. unfold space_out in E.
  pose proof (si_buf _ _ I) as B. unfold buf_space in E.
  assert (Hb : total (s_out s) <= b_size (s_buf s)) by (unfold buf_ok in B; lia).
  rewrite assert_true in E by lia. ob_in E.
  assert (Ht : total (kept s) = total (s_out s) + out_length s).
  { unfold kept, out_length. rewrite !total_app. lia. }
  assert (Hl : 0 <= out_length s).
  { unfold out_length. pose proof (total_nonneg (s_thr s)). pose proof (total_nonneg (s_q s)). lia. }
  replace (Z.max 0 ((if buf_size (s_buf s) <? total (s_out s) then 0
                     else buf_size (s_buf s) - total (s_out s)) - out_length s))
    with (Z.max 0 (buf_size (s_buf s) - total (kept s))) in E
    by (destruct (buf_size (s_buf s) <? total (s_out s)) eqn:Eb; lia).
  cbv zeta in E. fold n in E.
  set (taken := firstn (Z.to_nat n) bytes) in *.
  destruct (segment (length taken) taken s) as [s1|] eqn:E1; ob_in E; [|discriminate].
  destruct (segment_perm _ _ ps _ _ (le_n _) I D E1) as (D1 & T1 & R1 & O1).
  destruct (segment_law (length taken) taken ps s (le_n _) I) as (more & s1' & E1' & I1 & _).
  rewrite E1 in E1'. injection E1' as <-.
  destruct (flush_s [] s1) as [s2|] eqn:E2; ob_in E; [|discriminate].
  destruct (flush_s_perm _ _ _ _ I1 D1 E2) as (P2 & R2 & m & O2 & F2).
  injection E as <- <-. split; [reflexivity|].
  split.
  { rewrite (total_perm _ _ P2), T1. unfold taken. rewrite firstn_length. lia. }
  split; [eapply distinct_perm; [symmetry; exact P2|exact D1]|].
  split; [unfold same_rest in *; intuition congruence|].
  exists m. split; [congruence|exact F2].
Qed.

Lemma buf_set_size n len : 0 < n -> buf_size (buf_set n len) = n.
Proof.
  intros H. unfold buf_set, buf_size. destruct (len <=? n); simpl; [reflexivity|].
  replace (0 <? n) with true by lia. reflexivity.
Qed.

Lemma buf_removed_size b len : buf_size (buf_removed b len) = buf_size b.
Proof.
  unfold buf_removed. destruct (0 <? b_pending b) eqn:E; [|reflexivity].
  rewrite buf_set_size by lia. unfold buf_size. rewrite E. reflexivity.
Qed.

Lemma opt_size_pos v : 0 < opt_size v.
Proof. unfold opt_size. lia. Qed.

(** ** The invariant of the sender *)
Record winv (v : Z) (y : sys) : Prop := WInv {
  wi_dist : distinct (kept (y_s y));
  wi_size : buf_size (s_buf (y_s y)) = opt_size v;
  wi_pair : In (s_unacked (y_s y), s_lastwin (y_s y)) (announced y);
  wi_in : Forall (fun p => Exists (within p) (announced y)) (s_out (y_s y) ++ y_net y)
}.

Lemma exists_more p r l l' : Exists (within p) (r :: l) -> Exists (within p) (r :: l ++ l').
Proof. intros H. apply (proj2 (Exists_app (within p) (r :: l) l')). left. exact H. Qed.

(** A packet in the window of a pair that was announced. *)
Lemma pair_within s y p : In (s_unacked s, s_lastwin s) (announced y) ->
  p_seq p < s_unacked s + Z.min (s_cwnd s) (s_lastwin s) -> Exists (within p) (announced y).
Proof.
  intros H L. apply Exists_exists. eexists. split; [exact H|]. unfold within. simpl. lia.
Qed.

Lemma sent_within y s s' r' moved : In (s_unacked s', s_lastwin s') (announced y) ->
  Forall (fun p => Exists (within p) (announced y)) (s_out s ++ y_net y) ->
  s_out s' = s_out s ++ moved ->
  Forall (fun p => p_seq p < s_unacked s' + Z.min (s_cwnd s') (s_lastwin s')) moved ->
  Forall (fun p => Exists (within p) (announced (Sys s' r' (y_net y) (y_acks y))))
         (s_out s' ++ y_net y).
Proof.
  intros Hp F -> Fm. unfold announced. simpl. change ((2, 10) :: y_acks y) with (announced y).
  apply Forall_app in F as [F1 F2]. apply Forall_app. split; [|exact F2].
  apply Forall_app. split; [exact F1|]. eapply Forall_impl; [|exact Fm].
  intros p L. eapply pair_within; eauto.
Qed.

Lemma filter_total f l : total (filter f l) <= total l.
Proof.
  induction l as [|p l IH]; simpl; [lia|]. pose proof (plen_nonneg p).
  destruct (f p); simpl; lia.
Qed.

Lemma nodup_filter_tail a l f : distinct (a ++ l) -> distinct (a ++ filter f l).
Proof.
  unfold distinct. induction a as [|x a IH]; simpl; intros H.
  - induction l as [|y l IHl]; simpl in *; [constructor|]. inversion H as [|? ? H1 H2]; subst.
    destruct (f y); simpl; [|auto]. constructor; [|auto].
    intros Hin. apply H1. apply in_map_iff in Hin as (z & E & Hz). rewrite filter_In in Hz.
    rewrite <- E. apply in_map. tauto.
  - inversion H as [|? ? H1 H2]; subst. constructor; [|auto].
    intros Hin. apply H1. rewrite map_app, in_app_iff in *. destruct Hin as [|Hin]; [auto|].
    right. apply in_map_iff in Hin as (z & E & Hz). rewrite filter_In in Hz.
    rewrite <- E. apply in_map. tauto.
Qed.

Lemma wstep_law ps g v ev y res y' : inv ps g y -> winv v y -> step ev y = Some (res, y') ->
  winv (match ev with ESndBuf v' => v' | _ => v end) y'
  /\ (~ is_write ev -> total (kept (y_s y')) <= total (kept (y_s y)))
  /\ (forall p, In p (s_out (y_s y')) -> In p (s_out (y_s y))
        \/ p_seq p < s_unacked (y_s y') + Z.min (s_cwnd (y_s y')) (s_lastwin (y_s y'))).
Proof.
  intros [S R NN AA U] [D Z0 P F] E. destruct y as [s r net acks]. simpl in *.
  assert (Stay : forall r' , winv v (Sys s r' net acks)) by (intros; constructor; assumption).
  destruct ev as [bytes|n| |sh i| | |i lost|lost|n|v'|v']; simpl in E.
  - destruct (write bytes s) as [[res1 s1]|] eqn:Ew; ob_in E; [|discriminate].
    injection E as <- <-.
    destruct (write_exact ps bytes s res1 s1 S D Ew) as (_ & _ & D1 & (B1 & U1 & L1 & C1) & m & O1 & F1).
    simpl. split; [|split; [intros H; exfalso; apply H; exact Logic.I|]].
    + constructor; simpl; auto; [congruence|rewrite U1, L1; exact P|].
      eapply (sent_within (Sys s r net acks) s s1 r m); auto. rewrite U1, L1. exact P.
    + intros p. rewrite O1, in_app_iff. rewrite Forall_forall in F1. intros [H|H]; auto.
  - destruct (read n r) as [[res1 r1]|]; ob_in E; [|discriminate]. injection E as <- <-.
    simpl. split; [apply Stay|]. split; [lia|auto].
  - unfold pull in E. destruct (s_out s) as [|p o] eqn:Eo.
    + injection E as <- <-. simpl. rewrite Eo. split; [apply Stay|]. split; [lia|auto].
    + injection E as <- <-. simpl.
      assert (Hp : In p ps) by (apply (si_from _ _ S), in_kept; rewrite Eo; simpl; auto).
      pose proof (numbered_seq _ _ (si_num _ _ S) Hp) as Hs.
      assert (Q : Permutation (s_thr s ++ o ++ s_q s ++ [p]) (kept s)).
      { unfold kept. rewrite Eo. apply Permutation_app_head. simpl.
        rewrite app_assoc. symmetry. apply Permutation_cons_append. }
      assert (Hq : has_seq (p_seq p) (s_q s) = false).
      { apply has_seq_not. intros Hin.
        assert (D' : distinct (p :: s_thr s ++ o ++ s_q s)).
        { eapply distinct_perm; [|exact D]. unfold kept. rewrite Eo. simpl. symmetry.
          apply Permutation_middle. }
        inversion D' as [|? ? D1 _]; subst. apply D1. rewrite !map_app, !in_app_iff. auto. }
      rewrite Hq. replace (0 <? p_seq p) with true by lia. simpl.
      split; [|split].
      * constructor; simpl; auto.
        -- unfold kept. simpl. eapply distinct_perm; [symmetry; exact Q|exact D].
        -- rewrite buf_removed_size. exact Z0.
        -- unfold announced in *. simpl in *. inversion F as [|? ? F1 F2]; subst.
           apply Forall_app in F2 as [F2 F3]. apply Forall_app. split; [exact F2|].
           apply Forall_app. split; [exact F3|]. auto.
      * intros _. unfold kept. simpl. rewrite (total_perm _ _ Q). unfold kept. lia.
      * auto.
  - destruct (nth_error net i) as [p|].
    + destruct (arrive sh p r) as [r1|]; ob_in E; [|discriminate]. injection E as <- <-.
      simpl. split; [apply Stay|]. split; [lia|auto].
    + injection E as <- <-. simpl. split; [apply Stay|]. split; [lia|auto].
  - injection E as <- <-. simpl. split; [|split; [lia|auto]]. constructor; simpl; auto.
    + unfold announced in *. simpl in *. rewrite in_app_iff. tauto.
    + eapply Forall_impl; [|exact F]. intros p. apply exists_more.
  - destruct (flush_r r) as [r1|]; ob_in E; [|discriminate]. injection E as <- <-.
    simpl. split; [apply Stay|]. split; [lia|auto].
  - destruct (nth_error acks i) as [[a w]|] eqn:Ei;
      [|injection E as <- <-; simpl; split; [apply Stay|]; split; [lia|auto]].
    destruct (ack_in a w lost s) as [s1|] eqn:Ea; ob_in E; [|discriminate]. injection E as <- <-.
    assert (Ha : a <= s_next s).
    { rewrite Forall_forall in AA. apply nth_error_In in Ei as Hi. specialize (AA _ Hi). simpl in AA.
      pose proof (si_next _ _ S). destruct R. lia. }
    pose proof (si_ack _ _ S) as A.
    unfold ack_in in Ea. cbv zeta in Ea.
    match type of Ea with flush_s _ ?s2 = _ => set (s2' := s2) in * end.
    assert (H2 : sinv ps s2' /\ distinct (kept s2') /\ total (kept s2') <= total (kept s)
                 /\ s_buf s2' = s_buf s /\ s_out s2' = s_out s
                 /\ In (s_unacked s2', s_lastwin s2') (announced (Sys s r net acks))).
    { assert (Hi : In (a, w) (announced (Sys s r net acks))).
      { right. eapply nth_error_In; eauto. }
      unfold s2'. clear s2' Ea. replace (a <=? s_next s) with true by lia. rewrite A.
      rewrite andb_true_r.
      destruct (s_unacked s <? a) eqn:Ev; [|rewrite orb_false_r].
      - replace (a =? s_unacked s) with false by lia. simpl.
        assert (S1 : sinv ps (Snd (s_next s) a a w (s_cwnd s) (s_thr s)
             (filter (fun x => negb ((s_unacked s <=? p_seq x) && (p_seq x <? a))) (s_q s))
             (s_out s) (s_buf s))).
        { destruct S as [N W X Fr A' K B O]. constructor; simpl; auto.
          - intros x Hx. apply Fr. rewrite in_kept in *. simpl in Hx. rewrite filter_In in Hx. tauto.
          - intros x Hx L. assert (L' : s_unacked s <= p_seq x) by lia. specialize (K x Hx L').
            rewrite in_kept in *. simpl. rewrite filter_In.
            destruct ((s_unacked s <=? p_seq x) && (p_seq x <? a)) eqn:E2; [lia|]. tauto. }
        assert (Ew : forall (x : bool), x = negb (w =? s_lastwin s) ->
          (if x then Snd (s_next s) a a w (s_cwnd s) (s_thr s)
             (filter (fun x => negb ((s_unacked s <=? p_seq x) && (p_seq x <? a))) (s_q s))
             (s_out s) (s_buf s)
           else Snd (s_next s) a a (s_lastwin s) (s_cwnd s) (s_thr s)
             (filter (fun x => negb ((s_unacked s <=? p_seq x) && (p_seq x <? a))) (s_q s))
             (s_out s) (s_buf s))
          = Snd (s_next s) a a w (s_cwnd s) (s_thr s)
             (filter (fun x => negb ((s_unacked s <=? p_seq x) && (p_seq x <? a))) (s_q s))
             (s_out s) (s_buf s)).
        { intros [] Hx; [reflexivity|]. replace (s_lastwin s) with w by lia. reflexivity. }
        rewrite Ew by reflexivity. clear Ew. split; [exact S1|]. unfold kept. simpl.
        split; [rewrite !app_assoc; apply nodup_filter_tail; rewrite <- app_assoc; exact D|].
        split; [rewrite !total_app; pose proof (filter_total (fun x => negb ((s_unacked s <=? p_seq x) && (p_seq x <? a))) (s_q s)); lia|].
        split; [reflexivity|]. split; [reflexivity|exact Hi].
      - destruct ((a =? s_unacked s) && (s_lastwin s <? w)) eqn:Ew.
        + split; [destruct S; constructor; auto|]. unfold kept in *. simpl.
          split; [exact D|]. split; [lia|]. split; [reflexivity|]. split; [reflexivity|].
          replace (s_unacked s) with a by lia. exact Hi.
        + split; [exact S|]. split; [exact D|]. split; [lia|]. auto. }
    clearbody s2'. destruct H2 as (S2 & D2 & T2 & B2 & O2 & P2).
    destruct (flush_s_perm ps lost s2' s1 S2 D2 Ea) as (Q & (B1 & U1 & L1 & C1) & m & O1 & F1).
    simpl. split; [|split].
    + constructor; simpl.
      * eapply distinct_perm; [symmetry; exact Q|exact D2].
      * congruence.
      * rewrite U1, L1. exact P2.
      * eapply (sent_within (Sys s r net acks) s s1 r m); auto; [rewrite U1, L1; exact P2|congruence].
    + intros _. rewrite (total_perm _ _ Q). exact T2.
    + intros p. rewrite O1, O2, in_app_iff. rewrite Forall_forall in F1. intros [H|H]; auto.
  - destruct (flush_s lost s) as [s1|] eqn:Ef; ob_in E; [|discriminate]. injection E as <- <-.
    destruct (flush_s_perm ps lost s s1 S D Ef) as (Q & (B1 & U1 & L1 & C1) & m & O1 & F1).
    simpl. split; [|split].
    + constructor; simpl.
      * eapply distinct_perm; [symmetry; exact Q|exact D].
      * congruence.
      * rewrite U1, L1. exact P.
      * eapply (sent_within (Sys s r net acks) s s1 r m); auto. rewrite U1, L1; exact P.
    + intros _. rewrite (total_perm _ _ Q). lia.
    + intros p. rewrite O1, in_app_iff. rewrite Forall_forall in F1. intros [H|H]; auto.
  - injection E as <- <-. simpl. split; [constructor; assumption|]. split; [unfold kept; simpl; lia|auto].
  - injection E as <- <-. simpl. split; [|split; [unfold kept; simpl; lia|auto]].
    constructor; simpl; auto. apply buf_set_size, opt_size_pos.
  - injection E as <- <-. simpl. split; [apply Stay|]. split; [lia|auto].
Qed.

Lemma wrun_law : forall evs ps g v y outs y', inv ps g y -> winv v y -> Forall good_event evs ->
  run evs y = Some (outs, y') ->
  exists ps' g', inv ps' g' y' /\ winv (last_sndbuf v evs) y'.
Proof.
  induction evs as [|ev evs IH]; intros ps g v y outs y' I W G E; simpl in E.
  - injection E as <- <-. exists ps, g. auto.
  - inversion G as [|? ? G1 G2]; subst.
    destruct (step_law ps g ev y I G1) as (res & y1 & more & E1 & I1 & _).
    rewrite E1 in E. ob_in E.
    destruct (run evs y1) as [[o1 y2]|] eqn:E2; ob_in E; [|discriminate]. injection E as <- <-.
    destruct (wstep_law ps g v ev y res y1 I W E1) as (W1 & _).
    exact (IH _ _ _ _ _ _ I1 W1 G2 E2).
Qed.

Lemma start_winv sb rb : winv sb (start sb rb).
Proof.
  constructor; simpl; auto. all: first [reflexivity|constructor].
Qed.

Lemma wreach_law sb rb evs outs y : Forall good_event evs ->
  run evs (start sb rb) = Some (outs, y) ->
  exists ps g, inv ps g y /\ winv (last_sndbuf sb evs) y.
Proof.
  intros G E. exact (wrun_law evs [] [] sb _ outs y (start_inv sb rb) (start_winv sb rb) G E).
Qed.

Lemma announced_law sb rb evs outs y : Forall good_event evs ->
  run evs (start sb rb) = Some (outs, y) ->
  Forall (fun p => Exists (within p) (announced y)) (y_net y).
Proof.
  intros G E. destruct (wreach_law sb rb evs outs y G E) as (ps & g & _ & W).
  pose proof (wi_in _ _ W) as F. apply Forall_app in F. apply F.
Qed.

Lemma window_law sb rb evs outs y ev : Forall good_event evs -> good_event ev ->
  run evs (start sb rb) = Some (outs, y) ->
  exists res y', step ev y = Some (res, y')
    /\ In (s_unacked (y_s y'), s_lastwin (y_s y')) (announced y')
    /\ forall p, In p (s_out (y_s y')) -> In p (s_out (y_s y))
         \/ p_seq p < s_unacked (y_s y') + Z.min (s_cwnd (y_s y')) (s_lastwin (y_s y')).
Proof.
  intros G Gev E. destruct (wreach_law sb rb evs outs y G E) as (ps & g & I & W).
  destruct (step_law ps g ev y I Gev) as (res & y1 & more & E1 & I1 & _).
  destruct (wstep_law ps g _ ev y res y1 I W E1) as (W1 & _ & H).
  exists res, y1. split; [exact E1|]. split; [exact (wi_pair _ _ W1)|exact H].
Qed.

Lemma send_buffer_law sb rb evs outs y bytes : Forall good_event evs ->
  run evs (start sb rb) = Some (outs, y) ->
  let n := Z.min (Z.min (Z.of_nat (length bytes)) 65535)
                 (Z.max 0 (opt_size (last_sndbuf sb evs) - total (kept (y_s y)))) in
  exists res y', step (EWrite bytes) y = Some (res, y')
    /\ res = (if (n =? 0) && negb (Z.of_nat (length bytes) =? 0) then WouldBlock else Wrote n)
    /\ total (kept (y_s y')) = total (kept (y_s y)) + n.
Proof.
  intros G E n. destruct (wreach_law sb rb evs outs y G E) as (ps & g & I & W).
  destruct (step_law ps g (EWrite bytes) y I Logic.I) as (res & y1 & more & E1 & I1 & _).
  exists res, y1. split; [exact E1|]. simpl in E1.
  destruct (write bytes (y_s y)) as [[res1 s1]|] eqn:Ew; ob_in E1; [|discriminate].
  injection E1 as <- <-.
  destruct (write_exact ps bytes _ res1 s1 (iv_s _ _ _ I) (wi_dist _ _ W) Ew) as (H1 & H2 & _).
  rewrite (wi_size _ _ W) in H1, H2. auto.
Qed.

Lemma memory_law sb rb evs outs y ev : Forall good_event evs -> good_event ev ->
  run evs (start sb rb) = Some (outs, y) -> ~ is_write ev ->
  exists res y', step ev y = Some (res, y')
    /\ NoDup (map p_seq (kept (y_s y'))) /\ total (kept (y_s y')) <= total (kept (y_s y)).
Proof.
  intros G Gev E Hw. destruct (wreach_law sb rb evs outs y G E) as (ps & g & I & W).
  destruct (step_law ps g ev y I Gev) as (res & y1 & more & E1 & I1 & _).
  destruct (wstep_law ps g _ ev y res y1 I W E1) as (W1 & H & _).
  exists res, y1. split; [exact E1|]. split; [exact (wi_dist _ _ W1)|auto].
Qed.

(** ** The receive buffer *)
Lemma buf_space_size b len sp : buf_space b len = Some sp -> sp = Z.max 0 (buf_size b - len).
Proof.
  unfold buf_space. destruct (len <=? b_size b); simpl; [|discriminate]. intros E.
  injection E as <-. destruct (buf_size b <? len) eqn:El; lia.
Qed.

Lemma update_window_size r r' : update_window r = Some r' ->
  r' = Rcv (r_next r) (Z.max 0 (buf_size (r_buf r) - total (r_in r)) / MSS) (r_unord r) (r_in r)
           (r_part r) (r_buf r) (r_readable r).
Proof.
  unfold update_window. destruct (buf_space _ _) as [sp|] eqn:E; simpl; [|discriminate].
  apply buf_space_size in E. destruct (negb _ || negb _); simpl; [|discriminate].
  intros H. injection H as <-. rewrite E. reflexivity.
Qed.

Lemma flush_in_size b : forall u inp next rd next' rd' u' inp',
  flush_in b next rd u inp = Some (next', rd', u', inp') ->
  total inp <= total inp' <= Z.max (buf_size b) (total inp).
Proof.
  induction u as [|p u IH]; intros inp next rd next' rd' u' inp' E; simpl in E.
  - injection E as _ _ _ <-. lia.
  - destruct (p_seq p <? next); [injection E as _ _ _ <-; lia|].
    destruct (p_seq p =? next); [|injection E as _ _ _ <-; lia].
    destruct (buf_space b (total inp)) as [sp|] eqn:Es; simpl in E; [|discriminate].
    apply buf_space_size in Es.
    destruct (plen p <=? sp) eqn:El; [|injection E as _ _ _ <-; lia].
    apply IH in E. rewrite total_app in E. simpl in E. pose proof (plen_nonneg p).
    pose proof (total_nonneg inp). lia.
Qed.

Lemma flush_r_size r r' : flush_r r = Some r' ->
  r_buf r' = r_buf r
  /\ r_win r' = Z.max 0 (buf_size (r_buf r) - total (r_in r)) / MSS
  /\ total (r_in r) <= total (r_in r') <= Z.max (buf_size (r_buf r)) (total (r_in r)).
Proof.
  unfold flush_r. destruct (update_window r) as [r1|] eqn:E1; simpl; [|discriminate].
  apply update_window_size in E1. subst r1. simpl.
  destruct (flush_in _ _ _ _ _) as [[[[a b] c] d]|] eqn:E2; simpl; [|discriminate].
  intros H. injection H as <-. simpl. apply flush_in_size in E2. auto.
Qed.

Lemma data_in_size sh p r r' : data_in sh p r = Some r' -> r_buf r' = r_buf r /\ r_in r' = r_in r.
Proof.
  unfold data_in. destruct (_ <=? p_seq p); [intros E; injection E as <-; auto|].
  destruct (r_next r <=? p_seq p); [|intros E; injection E as <-; auto].
  destruct (buf_space _ _) as [sp|]; simpl; [|discriminate].
  destruct (_ || _); intros E; injection E as <-; [|auto].
  unfold packet_in. destruct (_ && _); auto.
Qed.

Lemma arrive_size sh p r r' : arrive sh p r = Some r' ->
  r_buf r' = r_buf r /\ total (r_in r') <= Z.max (buf_size (r_buf r)) (total (r_in r)).
Proof.
  unfold arrive. destruct (data_in sh p r) as [r1|] eqn:E1; simpl; [|discriminate].
  apply data_in_size in E1 as [B1 I1].
  destruct (if _ && _ then flush_r r1 else Some r1) as [r2|] eqn:E2; simpl; [|discriminate].
  assert (H2 : r_buf r2 = r_buf r /\ total (r_in r2) <= Z.max (buf_size (r_buf r)) (total (r_in r))).
  { destruct (_ && _).
    - apply flush_r_size in E2 as (B2 & _ & L2). rewrite B1, I1 in *. split; [exact B2|lia].
    - injection E2 as <-. rewrite B1, I1. split; [reflexivity|lia]. }
  destruct H2 as [B2 L2]. intros E3. apply flush_r_size in E3 as (B3 & _ & L3). rewrite B2 in *.
  split; [exact B3|lia].
Qed.

Lemma read_loop_size : forall inp rem b acc acc' part inp' b',
  read_loop rem inp b acc = (acc', part, inp', b') ->
  buf_size b' = buf_size b /\ total inp' <= total inp.
Proof.
  induction inp as [|p inp IH]; intros rem b acc acc' part inp' b' E; simpl in E.
  - injection E as _ _ <- <-. auto with zarith.
  - pose proof (plen_nonneg p). destruct (rem <=? 0); [injection E as _ _ <- <-; auto with zarith|].
    destruct (_ <? plen p).
    + injection E as _ _ <- <-. rewrite buf_removed_size. simpl. split; [reflexivity|lia].
    + apply IH in E as [E1 E2]. rewrite buf_removed_size in E1. simpl. split; [exact E1|lia].
Qed.

Lemma read_size n r res r' : read n r = Some (res, r') ->
  buf_size (r_buf r') = buf_size (r_buf r)
  /\ total (r_in r') <= Z.max (buf_size (r_buf r)) (total (r_in r))
  /\ r_win r' = Z.max 0 (buf_size (r_buf r) - total (r_in r')) / MSS.
Proof.
  unfold read. destruct (flush_r r) as [r1|] eqn:E1; simpl; [|discriminate].
  apply flush_r_size in E1 as (B1 & W1 & L1).
  destruct ((total (r_in r1) =? 0) && _) eqn:E0.
  - intros E. injection E as _ <-. rewrite B1. split; [reflexivity|]. split; [lia|].
    pose proof (total_nonneg (r_in r)). rewrite W1. do 2 f_equal. lia.
  - destruct (read_part n (r_part r1)) as [[[acc part] rem]|]; simpl; [|discriminate].
    set (X := if 0 <? rem then _ else _).
    assert (HX : forall a p i b, X = (a, p, i, b) ->
              buf_size b = buf_size (r_buf r) /\ total i <= total (r_in r1)).
    { intros a p i b. unfold X. destruct (0 <? rem).
      - destruct (read_loop rem (r_in r1) (r_buf r1) acc) as [[[a1 p1] i1] b1] eqn:El.
        intros H. injection H as _ _ <- <-. apply read_loop_size in El. rewrite B1 in El. exact El.
      - intros H. injection H as _ _ <- <-. rewrite B1. auto with zarith. }
    clearbody X. destruct X as [[[a p] i] b]. destruct (HX a p i b eq_refl) as [H1 H2].
    destruct (update_window _) as [r2|] eqn:E2; simpl; [|discriminate].
    apply update_window_size in E2. simpl in E2. intros E. injection E as _ <-. rewrite E2. simpl.
    rewrite H1. split; [reflexivity|]. split; [lia|reflexivity].
Qed.

Lemma rstep_law v ev y res y' : buf_size (r_buf (y_r y)) = opt_size v ->
  step ev y = Some (res, y') ->
  let v' := match ev with ERcvBuf v' => v' | _ => v end in
  buf_size (r_buf (y_r y')) = opt_size v'
  /\ total (r_in (y_r y')) <= Z.max (opt_size v') (total (r_in (y_r y)))
  /\ (forall n, ev = ERead n -> r_win (y_r y') = Z.max 0 (opt_size v' - total (r_in (y_r y'))) / MSS).
Proof.
  intros B E. destruct y as [s r net acks]. simpl in *.
  destruct ev as [bytes|n| |sh i| | |i lost|lost|n|w|w]; simpl in E.
  - destruct (write bytes s) as [[res1 s1]|]; ob_in E; [|discriminate]. injection E as <- <-. simpl.
    split; [exact B|]. split; [lia|discriminate].
  - destruct (read n r) as [[res1 r1]|] eqn:Er; ob_in E; [|discriminate]. injection E as <- <-. simpl.
    apply read_size in Er as (H1 & H2 & H3). rewrite B in *.
    split; [exact H1|]. split; [exact H2|]. intros _ _. exact H3.
  - destruct (pull s) as [[p|] s1]; injection E as <- <-; simpl;
      (split; [exact B|]; split; [lia|discriminate]).
  - destruct (nth_error net i) as [p|].
    + destruct (arrive sh p r) as [r1|] eqn:Er; ob_in E; [|discriminate]. injection E as <- <-. simpl.
      apply arrive_size in Er as (H1 & H2). rewrite H1, B in *.
      split; [reflexivity|]. split; [exact H2|discriminate].
    + injection E as <- <-. simpl. split; [exact B|]. split; [lia|discriminate].
  - injection E as <- <-. simpl. split; [exact B|]. split; [lia|discriminate].
  - destruct (flush_r r) as [r1|] eqn:Er; ob_in E; [|discriminate]. injection E as <- <-. simpl.
    apply flush_r_size in Er as (H1 & _ & H2). rewrite H1, B in *.
    split; [reflexivity|]. split; [lia|discriminate].
  - destruct (nth_error acks i) as [[a w]|].
    + destruct (ack_in a w lost s) as [s1|]; ob_in E; [|discriminate]. injection E as <- <-. simpl.
      split; [exact B|]. split; [lia|discriminate].
    + injection E as <- <-. simpl. split; [exact B|]. split; [lia|discriminate].
  - destruct (flush_s lost s) as [s1|]; ob_in E; [|discriminate]. injection E as <- <-. simpl.
    split; [exact B|]. split; [lia|discriminate].
  - injection E as <- <-. simpl. split; [exact B|]. split; [lia|discriminate].
  - injection E as <- <-. simpl. split; [exact B|]. split; [lia|discriminate].
  - injection E as <- <-. simpl. split; [apply buf_set_size, opt_size_pos|]. split; [lia|discriminate].
Qed.

Lemma rrun_law : forall evs v y outs y', buf_size (r_buf (y_r y)) = opt_size v ->
  run evs y = Some (outs, y') -> buf_size (r_buf (y_r y')) = opt_size (last_rcvbuf v evs).
Proof.
  induction evs as [|ev evs IH]; intros v y outs y' B E; simpl in E.
  - injection E as <- <-. exact B.
  - destruct (step ev y) as [[res y1]|] eqn:E1; ob_in E; [|discriminate].
    destruct (run evs y1) as [[o1 y2]|] eqn:E2; ob_in E; [|discriminate]. injection E as <- <-.
    destruct (rstep_law v ev y res y1 B E1) as (B1 & _). exact (IH _ _ _ _ B1 E2).
Qed.

Lemma receive_buffer_law sb rb evs outs y ev : Forall good_event evs -> good_event ev ->
  run evs (start sb rb) = Some (outs, y) ->
  let size := opt_size (last_rcvbuf rb (evs ++ [ev])) in
  exists res y', step ev y = Some (res, y')
    /\ total (r_in (y_r y')) <= Z.max size (total (r_in (y_r y)))
    /\ (forall n, ev = ERead n ->
        r_win (y_r y') = Z.max 0 (size - total (r_in (y_r y'))) / MSS).
Proof.
  intros G Gev E size. destruct (wreach_law sb rb evs outs y G E) as (ps & g & I & W).
  destruct (step_law ps g ev y I Gev) as (res & y1 & more & E1 & I1 & _).
  assert (B : buf_size (r_buf (y_r y)) = opt_size (last_rcvbuf rb evs)).
  { apply (rrun_law evs rb (start sb rb) outs y); [reflexivity|exact E]. }
  destruct (rstep_law _ ev y res y1 B E1) as (_ & H1 & H2).
  exists res, y1. split; [exact E1|]. unfold size, last_rcvbuf. rewrite fold_left_app. simpl.
  split; [exact H1|exact H2].
Qed.
