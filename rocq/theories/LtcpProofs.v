(** The two sockets keep the stream: proofs for [LtcpProps]. *)
From Verif Require Import Base LtcpModel LtcpSpec.

(** ** Lists of packets *)
Lemma plen_nonneg p : 0 <= plen p.
Proof. unfold plen. lia. Qed.

Lemma total_nonneg l : 0 <= total l.
Proof. induction l as [|p l IH]; simpl; [lia|]. pose proof (plen_nonneg p). lia. Qed.

Lemma total_app a b : total (a ++ b) = total a + total b.
Proof. induction a as [|p a IH]; simpl; lia. Qed.

Lemma in_pq_push p l x : In x (pq_push p l) <-> x = p \/ In x l.
Proof.
  induction l as [|y l IH]; simpl; [intuition congruence|].
  destruct (p_seq p <? p_seq y); simpl; [intuition congruence|]. rewrite IH. intuition congruence.
Qed.

Lemma has_seq_spec n l : has_seq n l = true <-> exists p, In p l /\ p_seq p = n.
Proof.
  unfold has_seq. rewrite existsb_exists. split; intros [p [H E]]; exists p; split; auto; lia.
Qed.

(** Queues are sorted by number. *)
Definition ordered (l : list pkt) : Prop := StronglySorted (fun a b => p_seq a <= p_seq b) l.

Lemma pq_push_ordered p l : ordered l -> ordered (pq_push p l).
Proof.
  unfold ordered. induction l as [|x l IH]; intros H; simpl.
  - constructor; constructor.
  - inversion H as [|? ? H1 H2]; subst. destruct (p_seq p <? p_seq x) eqn:E.
    + constructor; [exact H|]. constructor; [lia|].
      eapply Forall_impl; [|exact H2]. intros a. simpl. lia.
    + constructor; [apply IH, H1|]. rewrite Forall_forall in *. intros a Ha.
      apply in_pq_push in Ha as [->|Ha]; [lia|auto].
Qed.

Lemma ordered_app a b : ordered (a ++ b) -> ordered b.
Proof.
  induction a as [|x a IH]; intros H; [exact H|]. apply IH. inversion H. assumption.
Qed.

(** ** Buffers *)
Definition buf_ok (b : buf) (len : Z) : Prop :=
  0 <= len <= b_size b /\ MSS <= b_size b
  /\ (b_pending b = 0 \/ (MSS <= b_pending b <= b_size b)).

Lemma buf_space_ok b len : buf_ok b len ->
  exists sp, buf_space b len = Some sp /\ 0 <= sp /\ len + sp <= b_size b
             /\ (len = 0 -> MSS <= sp).
Proof.
  unfold buf_ok, buf_space, buf_size, MSS. intros H.
  rewrite assert_true by lia. eexists. split; [reflexivity|].
  destruct (0 <? b_pending b) eqn:E; [destruct (b_pending b <? len) eqn:F
                                     |destruct (b_size b <? len) eqn:F]; lia.
Qed.

Lemma buf_add b len n : buf_ok b len -> 0 <= n -> len + n <= b_size b -> buf_ok b (len + n).
Proof. unfold buf_ok. intuition lia. Qed.

Lemma buf_set_ok n len : MSS <= n -> 0 <= len -> buf_ok (buf_set n len) len.
Proof.
  unfold buf_ok, buf_set, MSS. intros. destruct (len <=? n) eqn:E; simpl; lia.
Qed.

Lemma buf_removed_ok b len len' : buf_ok b len -> 0 <= len' <= len ->
  buf_ok (buf_removed b len') len'.
Proof.
  intros H L. unfold buf_removed. destruct (0 <? b_pending b) eqn:E.
  - apply buf_set_ok; [|lia]. unfold buf_ok in H. lia.
  - unfold buf_ok in *. lia.
Qed.

Lemma opt_size_ok v : MSS <= opt_size v.
Proof. unfold MSS, opt_size. lia. Qed.

(** ** The packets of the stream *)
Definition numbered (ps : list pkt) : Prop :=
  forall i p, nth_error ps i = Some p -> p_seq p = 2 + Z.of_nat i.

Definition whole (p : pkt) : Prop := 0 < plen p <= MSS.

Lemma numbered_inj ps p q : numbered ps -> In p ps -> In q ps -> p_seq p = p_seq q -> p = q.
Proof.
  intros N Hp Hq E. apply In_nth_error in Hp as [i Hi]. apply In_nth_error in Hq as [j Hj].
  pose proof (N _ _ Hi). pose proof (N _ _ Hj). assert (i = j) by lia. subst j. congruence.
Qed.

Lemma numbered_seq ps p : numbered ps -> In p ps ->
  2 <= p_seq p < 2 + Z.of_nat (length ps).
Proof.
  intros N H. apply In_nth_error in H as [i Hi]. pose proof (N _ _ Hi).
  assert (i < length ps)%nat by (apply nth_error_Some; congruence). lia.
Qed.

Lemma numbered_at ps p k : numbered ps -> In p ps -> p_seq p = 2 + Z.of_nat k ->
  nth_error ps k = Some p.
Proof.
  intros N H E. apply In_nth_error in H as [i Hi]. pose proof (N _ _ Hi).
  assert (i = k) by lia. subst. exact Hi.
Qed.

Lemma numbered_snoc ps d : numbered ps -> numbered (ps ++ [Pkt (2 + Z.of_nat (length ps)) d]).
Proof.
  intros N i p H. destruct (Nat.lt_ge_cases i (length ps)) as [L|L].
  - rewrite nth_error_app1 in H by exact L. auto.
  - rewrite nth_error_app2 in H by exact L. destruct (i - length ps)%nat as [|k] eqn:E; simpl in H.
    + injection H as <-. simpl. lia.
    + destruct k; discriminate.
Qed.

Lemma firstn_snoc {A} (l : list A) k x : nth_error l k = Some x ->
  firstn (S k) l = firstn k l ++ [x].
Proof.
  revert k. induction l as [|a l IH]; intros [|k] H; simpl in *; try discriminate.
  - injection H as ->. reflexivity.
  - rewrite (IH _ H). reflexivity.
Qed.

(** ** The sender *)
Record sinv (ps : list pkt) (s : sender) : Prop := SInv {
  si_num : numbered ps;
  si_whole : Forall whole ps;
  si_next : s_next s = 2 + Z.of_nat (length ps);
  si_from : incl (kept s) ps;
  si_ack : s_lastack s = s_unacked s;
  si_kept : forall p, In p ps -> s_unacked s <= p_seq p -> In p (kept s);
  si_buf : buf_ok (s_buf s) (total (s_out s));
  si_ord : ordered (s_thr s)
}.

Lemma in_kept s p : In p (kept s) <-> In p (s_thr s) \/ In p (s_out s) \/ In p (s_q s).
Proof. unfold kept. rewrite !in_app_iff. reflexivity. Qed.

Lemma packet_out_kept p s ps : numbered ps -> incl (kept s) ps -> In p ps ->
  forall x, In x (kept (packet_out p s)) <-> x = p \/ In x (kept s).
Proof.
  intros N F Hp x. unfold packet_out. destruct (has_seq (p_seq p) (s_thr s)) eqn:E.
  - apply has_seq_spec in E as [p' [H1 H2]].
    assert (Hk : In p' (kept s)) by (apply in_kept; auto).
    assert (p' = p) by (eapply numbered_inj; eauto). subst p'. intuition congruence.
  - rewrite !in_kept. simpl. rewrite in_pq_push. tauto.
Qed.

Lemma packet_out_fields p s :
  s_next (packet_out p s) = s_next s /\ s_unacked (packet_out p s) = s_unacked s
  /\ s_lastack (packet_out p s) = s_lastack s /\ s_buf (packet_out p s) = s_buf s
  /\ s_out (packet_out p s) = s_out s.
Proof. unfold packet_out. destruct (has_seq _ _); simpl; auto. Qed.

Lemma packet_out_ordered p s : ordered (s_thr s) -> ordered (s_thr (packet_out p s)).
Proof.
  intros H. unfold packet_out. destruct (has_seq _ _); [exact H|]. apply pq_push_ordered, H.
Qed.

Lemma retransmit_inv ps n s : sinv ps s -> sinv ps (retransmit n s).
Proof.
  intros [N W X F A K B O]. unfold retransmit.
  destruct (find _ (s_q s)) as [p|] eqn:E; [|constructor; auto].
  apply find_some in E as [Hp En]. apply Z.eqb_eq in En.
  set (s0 := Snd _ _ _ _ _ _ _ _ _).
  assert (Hin : In p ps) by (apply F, in_kept; auto).
  assert (F0 : incl (kept s0) ps).
  { intros x Hx. apply F. rewrite in_kept in *. unfold s0 in Hx. simpl in Hx.
    rewrite filter_In in Hx. tauto. }
  destruct (packet_out_fields p s0) as (E1 & E2 & E3 & E4 & E5).
  constructor; auto.
  - rewrite E1. exact X.
  - intros x Hx. rewrite (packet_out_kept p s0 ps N F0 Hin) in Hx. destruct Hx as [->|Hx]; auto.
  - rewrite E2, E3. exact A.
  - intros x Hx L. rewrite E2 in L. specialize (K x Hx L).
    rewrite (packet_out_kept p s0 ps N F0 Hin). rewrite in_kept in *. unfold s0. simpl.
    rewrite filter_In. destruct (p_seq x =? n) eqn:E; [|tauto].
    left. eapply numbered_inj; eauto. lia.
  - rewrite E4, E5. exact B.
  - apply packet_out_ordered. exact O.
Qed.

Lemma retransmit_unacked n s : s_unacked (retransmit n s) = s_unacked s.
Proof.
  unfold retransmit. destruct (find _ _); [|reflexivity].
  destruct (packet_out_fields p (Snd (s_next s) (s_unacked s) (s_lastack s) (s_lastwin s) (s_cwnd s) (s_thr s)
             (filter (fun x => negb (p_seq x =? n)) (s_q s)) (s_out s) (s_buf s))) as (_ & E & _).
  exact E.
Qed.

Lemma retransmits_inv ps lost : forall s, sinv ps s ->
  sinv ps (fold_left (fun s n => retransmit n s) lost s)
  /\ s_unacked (fold_left (fun s n => retransmit n s) lost s) = s_unacked s.
Proof.
  induction lost as [|n lost IH]; intros s H; simpl; [auto|].
  destruct (IH _ (retransmit_inv ps n s H)) as [H1 H2]. rewrite H2.
  split; [exact H1|]. apply retransmit_unacked.
Qed.

Lemma flush_out_law lim b : forall thr out, buf_ok b (total out) ->
  exists thr' out', flush_out lim b thr out = Some (thr', out')
    /\ buf_ok b (total out') /\ exists moved, thr = moved ++ thr' /\ out' = out ++ moved.
Proof.
  induction thr as [|p thr IH]; intros out B; simpl.
  - exists [], out. split; [reflexivity|]. split; [exact B|]. exists []. rewrite !app_nil_r. auto.
  - destruct (buf_space_ok b _ B) as (sp & -> & S0 & S1 & _). ob.
    destruct ((0 <? plen p) && _) eqn:E.
    { exists (p :: thr), out. split; [reflexivity|]. split; [exact B|]. exists [].
      rewrite !app_nil_r. auto. }
    pose proof (plen_nonneg p).
    assert (L : plen p <= sp) by lia.
    rewrite assert_true by lia.
    assert (B' : buf_ok b (total (out ++ [p]))).
    { rewrite total_app. simpl. apply buf_add; auto; lia. }
    destruct (IH _ B') as (t & o & H1 & H2 & moved & -> & ->).
    exists t, ((out ++ [p]) ++ moved). split; [exact H1|]. split; [exact H2|].
    exists (p :: moved). rewrite <- app_assoc. auto.
Qed.

Lemma flush_s_law ps lost s : sinv ps s ->
  exists s', flush_s lost s = Some s' /\ sinv ps s' /\ s_unacked s' = s_unacked s.
Proof.
  intros H. unfold flush_s.
  destruct (retransmits_inv ps lost s H) as [H1 U]. set (s1 := fold_left _ _ _) in *.
  destruct H1 as [N W X F A K B O].
  destruct (flush_out_law (s_unacked s1 + Z.min (s_cwnd s1) (s_lastwin s1)) (s_buf s1)
              (s_thr s1) (s_out s1) B) as (t & o & E & B' & moved & P1 & P2).
  cbv zeta. rewrite E. ob. eexists. split; [reflexivity|].
  assert (Same : forall x, In x (t ++ o ++ s_q s1) <-> In x (kept s1)).
  { intros x. rewrite in_kept, !in_app_iff.
    rewrite P1, P2, !in_app_iff. tauto. }
  split; [|exact U]. constructor; simpl; auto.
  - intros x Hx. unfold kept in Hx. simpl in Hx. apply F, Same, Hx.
  - intros x Hx L. unfold kept. simpl. apply Same, K; auto.
  - rewrite P1 in O. apply ordered_app in O. exact O.
Qed.

Definition cut (ps : list pkt) : list Z := concat (map p_data ps).

Lemma cut_app a b : cut (a ++ b) = cut a ++ cut b.
Proof. unfold cut. rewrite map_app, concat_app. reflexivity. Qed.

Lemma cut_length l : Z.of_nat (length (cut l)) = total l.
Proof.
  unfold cut. induction l as [|p l IH]; [reflexivity|]. simpl. rewrite app_length.
  unfold plen. lia.
Qed.

Lemma segment_law : forall fuel bytes ps s, (length bytes <= fuel)%nat -> sinv ps s ->
  exists more s', segment fuel bytes s = Some s' /\ sinv (ps ++ more) s'
    /\ cut more = bytes /\ s_unacked s' = s_unacked s.
Proof.
  induction fuel as [|fuel IH]; intros bytes ps s L H.
  - destruct bytes; [|simpl in L; lia]. exists [], s. rewrite app_nil_r. simpl. auto.
  - destruct bytes as [|b1 bytes1]; [exists [], s; rewrite app_nil_r; simpl; auto|].
    cbn [segment]. remember (b1 :: bytes1) as bytes eqn:Eb.
    set (d := firstn (Z.to_nat MSS) bytes). set (p := Pkt (s_next s) d).
    set (s0 := Snd (s_next s + 1) (s_unacked s) (s_lastack s) (s_lastwin s) (s_cwnd s)
                   (s_thr s) (s_q s) (s_out s) (s_buf s)).
    {
      assert (Hd : (length (skipn (Z.to_nat MSS) bytes) <= fuel)%nat).
      { rewrite skipn_length. rewrite Eb in *. simpl in L |- *. unfold MSS. lia. }
      assert (Hs : sinv (ps ++ [p]) (packet_out p s0)).
      { destruct H as [N W X F A K B O].
        assert (Np : numbered (ps ++ [p])).
        { unfold p. rewrite X. apply numbered_snoc, N. }
        assert (F0 : incl (kept s0) (ps ++ [p])).
        { intros x Hx. apply in_or_app. left. apply F. exact Hx. }
        assert (Hp : In p (ps ++ [p])) by (apply in_or_app; simpl; auto).
        destruct (packet_out_fields p s0) as (E1 & E2 & E3 & E4 & E5).
        constructor; auto.
        - apply Forall_app. split; [exact W|]. constructor; [|constructor].
          assert (Hl : length (p_data p) = Nat.min (Z.to_nat MSS) (length bytes)).
          { unfold p. cbn [p_data]. unfold d. apply firstn_length. }
          unfold whole, plen. rewrite Hl, Eb. unfold MSS. cbn [length]. lia.
        - rewrite E1, app_length. simpl. lia.
        - intros x Hx. rewrite (packet_out_kept p s0 _ Np F0 Hp) in Hx.
          destruct Hx as [->|Hx]; auto.
        - rewrite E2, E3. exact A.
        - intros x Hx Lx. rewrite E2 in Lx. rewrite (packet_out_kept p s0 _ Np F0 Hp).
          apply in_app_or in Hx as [Hx|[<-|[]]]; [|auto]. right. apply (K x Hx Lx).
        - rewrite E4, E5. exact B.
        - apply packet_out_ordered. exact O. }
      destruct (IH _ _ _ Hd Hs) as (more & s' & E & I' & C & U).
      exists (p :: more), s'. cbv zeta. split; [exact E|].
      rewrite <- app_assoc in I'. split; [exact I'|].
      split.
      * change (p :: more) with ([p] ++ more). rewrite cut_app, C. unfold cut. simpl.
        rewrite app_nil_r. apply firstn_skipn.
      * rewrite U. destruct (packet_out_fields p s0) as (_ & E2 & _). exact E2. }
Qed.

Lemma space_out_ok ps s : sinv ps s -> exists sp, space_out s = Some sp /\ 0 <= sp.
Proof.
  intros H. unfold space_out. destruct (buf_space_ok _ _ (si_buf _ _ H)) as (sp & -> & _).
  ob. eexists. split; [reflexivity|lia].
Qed.

Lemma write_law ps bytes s : sinv ps s ->
  exists res s' more, write bytes s = Some (res, s') /\ sinv (ps ++ more) s'
    /\ s_unacked s' = s_unacked s
    /\ (exists n, 0 <= n <= Z.of_nat (length bytes) /\ cut more = firstn (Z.to_nat n) bytes
        /\ (res = Wrote n \/ (n = 0 /\ res = WouldBlock))).
Proof.
  intros H. unfold write. destruct (space_out_ok _ _ H) as (sp & -> & S0). ob.
  set (n := Z.min (Z.min (Z.of_nat (length bytes)) 65535) sp).
  set (taken := firstn (Z.to_nat n) bytes).
  destruct (segment_law (length taken) taken ps s (le_n _) H) as (more & s1 & E & I1 & C & U).
  cbv zeta. rewrite E. ob.
  destruct (flush_s_law _ [] _ I1) as (s2 & E2 & I2 & U2). rewrite E2. ob.
  eexists _, s2, more. split; [reflexivity|]. split; [exact I2|]. split; [congruence|].
  exists n. split; [lia|]. split; [exact C|].
  destruct ((n =? 0) && _) eqn:Z0; [right; split; [lia|reflexivity]|left; reflexivity].
Qed.

Lemma pull_law ps s : sinv ps s ->
  sinv ps (snd (pull s)) /\ s_unacked (snd (pull s)) = s_unacked s
  /\ (forall p, fst (pull s) = Some p -> In p ps).
Proof.
  intros [N W X F A K B O]. unfold pull. destruct (s_out s) as [|p r] eqn:Eo.
  - simpl. split; [constructor; auto; rewrite Eo; exact B|]. split; [reflexivity|discriminate].
  - simpl. assert (Hp : In p ps).
    { apply F, in_kept. rewrite Eo. simpl. auto. }
    assert (Same : forall x, In x (kept s) <->
      In x (s_thr s) \/ In x r \/ In x (if (0 <? p_seq p) && negb (has_seq (p_seq p) (s_q s))
                                     then s_q s ++ [p] else s_q s)).
    { intros x. rewrite in_kept, Eo. simpl.
      destruct ((0 <? p_seq p) && negb (has_seq (p_seq p) (s_q s))) eqn:E.
      - rewrite in_app_iff. simpl. intuition congruence.
      - assert (Hq : In p (s_q s)).
        { pose proof (numbered_seq _ _ N Hp).
          assert (Hs : has_seq (p_seq p) (s_q s) = true) by lia.
          apply has_seq_spec in Hs as [p' [H1 H2]].
          assert (p' = p); [|congruence].
          eapply numbered_inj; eauto. apply F, in_kept. auto. }
        split; [|tauto]. intros [H|[[H|H]|H]]; auto. subst. auto. }
    split; [|split; [reflexivity|congruence]].
    constructor; simpl; auto.
    + intros x Hx. apply F, Same. rewrite in_kept in Hx. exact Hx.
    + intros x Hx L. rewrite in_kept. simpl. apply Same, K; auto.
    + eapply buf_removed_ok; [exact B|]. simpl.
      pose proof (plen_nonneg p). pose proof (total_nonneg r). lia.
Qed.

Lemma ack_in_law ps a w lost s : sinv ps s ->
  exists s', ack_in a w lost s = Some s' /\ sinv ps s'
    /\ (s_unacked s' = s_unacked s \/ s_unacked s' = a).
Proof.
  intros H. unfold ack_in. cbv zeta.
  set (s1 := if _ && _ then _ else s).
  assert (H1 : sinv ps s1 /\ (s_unacked s1 = s_unacked s \/ s_unacked s1 = a)).
  { unfold s1. destruct ((s_unacked s <? a) && (a <=? s_next s)) eqn:E; [|auto].
    destruct H as [N W X F A K B O]. split; [|auto]. constructor; simpl; auto.
    - intros x Hx. apply F. rewrite in_kept in *. simpl in Hx. rewrite filter_In in Hx. tauto.
    - intros x Hx L. assert (L' : s_unacked s <= p_seq x) by lia. specialize (K x Hx L').
      rewrite in_kept in *. simpl. rewrite filter_In.
      destruct ((s_lastack s <=? p_seq x) && (p_seq x <? a)) eqn:E2; [lia|]. tauto. }
  clearbody s1. destruct H1 as [H1 U1].
  set (s2 := if _ || _ then _ else s1).
  assert (H2 : sinv ps s2 /\ s_unacked s2 = s_unacked s1).
  { unfold s2. destruct (_ || _); [|auto]. destruct H1 as [N W X F A K B O].
    split; [constructor; simpl; auto|reflexivity]. }
  clearbody s2. destruct H2 as [H2 U2].
  destruct (flush_s_law ps lost s2 H2) as (s' & E & I' & U). exists s'.
  split; [exact E|]. split; [exact I'|]. rewrite U, U2. exact U1.
Qed.

(** ** The receiver *)
Record rinv (ps : list pkt) (g : list Z) (r : receiver) : Prop := RInv {
  ri_next : 2 <= r_next r <= 2 + Z.of_nat (length ps);
  ri_unord : incl (r_unord r) ps;
  ri_in : incl (r_in r) ps;
  ri_stream : g ++ waiting r = cut (firstn (Z.to_nat (r_next r - 2)) ps);
  ri_part : match r_part r with Some (p, off) => 0 <= off < plen p | None => True end;
  ri_buf : buf_ok (r_buf r) (total (r_in r));
  ri_win : 0 <= r_win r;
  ri_ord : ordered (r_unord r);
  ri_readable : r_readable r = true -> waiting r <> []
}.

Lemma update_window_law ps g r : rinv ps g r ->
  exists r', update_window r = Some r' /\ rinv ps g r'
    /\ r_next r' = r_next r /\ waiting r' = waiting r /\ r_unord r' = r_unord r
    /\ r_in r' = r_in r /\ r_part r' = r_part r /\ r_readable r' = r_readable r
    /\ r_buf r' = r_buf r.
Proof.
  intros [A B C D E F G O Y]. unfold update_window.
  destruct (buf_space_ok _ _ F) as (sp & -> & S0 & S1 & S2). ob.
  assert (Hc : negb (sp / MSS =? 0) || negb (total (r_in r) =? 0) = true).
  { destruct (total (r_in r) =? 0) eqn:Et; [|apply orb_true_r].
    assert (MSS <= sp) by (apply S2; lia).
    assert (1 <= sp / MSS) by (apply Z.div_le_lower_bound; unfold MSS in *; lia).
    rewrite orb_false_r. destruct (sp / MSS =? 0) eqn:Ez; [lia|reflexivity]. }
  cbv zeta. rewrite assert_true by exact Hc.
  eexists. split; [reflexivity|]. split; [|simpl; auto 10].
  constructor; simpl; auto. apply Z.div_pos; unfold MSS; lia.
Qed.

Lemma flush_in_law ps b : numbered ps -> forall u inp next rd,
  incl u ps -> incl inp ps -> 2 <= next <= 2 + Z.of_nat (length ps) -> buf_ok b (total inp) ->
  exists next' rd' u' inp', flush_in b next rd u inp = Some (next', rd', u', inp')
    /\ (exists pre, u = pre ++ u') /\ incl inp' ps
    /\ next <= next' <= 2 + Z.of_nat (length ps)
    /\ buf_ok b (total inp') /\ (rd' = true -> rd = true \/ 0 < total inp')
    /\ exists new, inp' = inp ++ new
       /\ firstn (Z.to_nat (next' - 2)) ps = firstn (Z.to_nat (next - 2)) ps ++ new.
Proof.
  intros N. induction u as [|p u IH]; intros inp next rd Hu Hi Hn B; simpl.
  - exists next, rd, [], inp. split; [reflexivity|]. split; [exists []; reflexivity|].
    split; [exact Hi|]. split; [lia|]. split; [exact B|]. split; [auto|].
    exists []. rewrite !app_nil_r. auto.
  - assert (Stop : forall u0, (exists pre, p :: u = pre ++ u0) ->
      exists next' rd' u' inp', Some (next, rd, u0, inp) = Some (next', rd', u', inp')
      /\ (exists pre, p :: u = pre ++ u') /\ incl inp' ps
      /\ next <= next' <= 2 + Z.of_nat (length ps)
      /\ buf_ok b (total inp') /\ (rd' = true -> rd = true \/ 0 < total inp')
      /\ exists new, inp' = inp ++ new
         /\ firstn (Z.to_nat (next' - 2)) ps = firstn (Z.to_nat (next - 2)) ps ++ new).
    { intros u0 H0. exists next, rd, u0, inp. split; [reflexivity|]. split; [exact H0|].
      split; [exact Hi|]. split; [lia|]. split; [exact B|]. split; [auto|].
      exists []. rewrite !app_nil_r. auto. }
    destruct (p_seq p <? next) eqn:E1; [apply Stop; exists [p]; reflexivity|].
    destruct (p_seq p =? next) eqn:E2; [|apply Stop; exists []; reflexivity].
    destruct (buf_space_ok _ _ B) as (sp & -> & S0 & S1 & _). ob.
    destruct (plen p <=? sp) eqn:E3; [|apply Stop; exists []; reflexivity].
    assert (Hp : In p ps) by (apply Hu; simpl; auto).
    pose proof (numbered_seq _ _ N Hp) as Hs.
    assert (B' : buf_ok b (total (inp ++ [p]))).
    { rewrite total_app. simpl. pose proof (plen_nonneg p). apply buf_add; auto; lia. }
    assert (Hu' : incl u ps) by (intros x Hx; apply Hu; simpl; auto).
    assert (Hi' : incl (inp ++ [p]) ps) by (apply incl_app; [exact Hi|intros x [<-|[]]; auto]).
    destruct (IH (inp ++ [p]) (next + 1) (rd || (0 <? total (inp ++ [p]))) Hu' Hi'
                ltac:(lia) B') as (n' & r' & u' & i' & H1 & [pre H2] & H3 & H4 & H5 & Hr & new & H6 & H7).
    exists n', r', u', i'. split; [exact H1|].
    split; [exists (p :: pre); rewrite H2; reflexivity|].
    split; [exact H3|]. split; [lia|]. split; [exact H5|].
    split.
    { intros Er. destruct (Hr Er) as [Hx|Hx]; [|auto]. apply orb_true_iff in Hx as [Hx|Hx]; [auto|].
      right. rewrite H6, total_app. pose proof (total_nonneg new). lia. }
    exists (p :: new). split; [rewrite H6, <- app_assoc; reflexivity|].
    rewrite H7. replace (Z.to_nat (next + 1 - 2)) with (S (Z.to_nat (next - 2))) by lia.
    rewrite (firstn_snoc ps _ p) by (apply numbered_at; auto; lia).
    rewrite <- app_assoc. reflexivity.
Qed.

Lemma flush_r_law ps g r : numbered ps -> rinv ps g r ->
  exists r', flush_r r = Some r' /\ rinv ps g r' /\ r_next r <= r_next r'
    /\ incl (r_unord r') (r_unord r).
Proof.
  intros N H. unfold flush_r.
  destruct (update_window_law _ _ _ H) as (r1 & -> & H1 & En & Ew & Eu & Ei & Ep & Er & Eb). ob.
  destruct H1 as [A B C D E F G O Y].
  destruct (flush_in_law ps (r_buf r1) N (r_unord r1) (r_in r1) (r_next r1) (r_readable r1)
              B C A F) as (n' & rd' & u' & i' & -> & [pre H2] & H3 & H4 & H5 & Hrd & new & H6 & H7).
  ob. eexists. split; [reflexivity|]. simpl. assert (Hi : incl u' (r_unord r1)) by (rewrite H2; apply incl_appr, incl_refl).
  split; [|split; [lia|rewrite <- Eu; exact Hi]].
  constructor; simpl; auto; [lia|intros x Hx; apply B, Hi, Hx| | |].
  - rewrite H7, cut_app, <- D, <- app_assoc. f_equal. unfold waiting. simpl.
    rewrite H6, map_app, concat_app, app_assoc. reflexivity.
  - rewrite H2 in O. apply ordered_app in O. exact O.
  - intros Ht Ee. unfold waiting in Ee. simpl in Ee. apply app_eq_nil in Ee as [Ee1 Ee2].
    destruct (Hrd Ht) as [Hx|Hx].
    + apply (Y Hx). unfold waiting. rewrite Ee1. simpl.
      rewrite H6, map_app, concat_app in Ee2. apply app_eq_nil in Ee2 as [Ee2 _]. exact Ee2.
    + pose proof (cut_length i') as Hc. unfold cut in Hc. rewrite Ee2 in Hc. simpl in Hc. lia.
Qed.

Lemma data_in_law ps g sh p r : rinv ps g r -> In p ps ->
  exists r', data_in sh p r = Some r' /\ rinv ps g r' /\ r_next r' = r_next r.
Proof.
  intros H Hp. unfold data_in.
  destruct (_ <=? p_seq p); [eauto|]. destruct (_ <=? p_seq p); [|eauto].
  destruct (buf_space_ok _ _ (ri_buf _ _ _ H)) as (sp & -> & _). ob. cbv zeta.
  destruct (_ || _); [|eauto]. eexists. split; [reflexivity|].
  unfold packet_in. destruct (negb _ && negb _); [|auto]. split; [|reflexivity].
  destruct H as [A B C D E F G O Y]. constructor; simpl; auto; [|apply pq_push_ordered, O].
  intros x Hx. apply in_pq_push in Hx as [->|Hx]; auto.
Qed.

Lemma arrive_law ps g sh p r : numbered ps -> rinv ps g r -> In p ps ->
  exists r', arrive sh p r = Some r' /\ rinv ps g r' /\ r_next r <= r_next r'.
Proof.
  intros N H Hp. unfold arrive.
  destruct (data_in_law _ _ sh p r H Hp) as (r1 & -> & H1 & E1). ob.
  assert (H2 : exists r2, (if (r_next r1 <? p_seq p) && (p_seq p <? r_next r1 + r_win r1)
                           then flush_r r1 else Some r1) = Some r2
                          /\ rinv ps g r2 /\ r_next r <= r_next r2).
  { destruct (_ && _).
    - destruct (flush_r_law _ _ _ N H1) as (r2 & E2 & H2 & L2 & _). exists r2. intuition lia.
    - exists r1. intuition lia. }
  destruct H2 as (r2 & -> & H2 & L2). ob.
  destruct (flush_r_law _ _ _ N H2) as (r3 & E3 & H3 & L3 & _). exists r3. intuition lia.
Qed.

(** Reading takes a prefix of what waits. *)
Definition rest_of (part : option (pkt * Z)) : list Z :=
  match part with Some (p, off) => skipn (Z.to_nat off) (p_data p) | None => [] end.

Definition part_ok (part : option (pkt * Z)) : Prop :=
  match part with Some (p, off) => 0 <= off < plen p | None => True end.

Lemma firstn_min {A} (l : list A) n : (length l <= n)%nat -> firstn n l = l.
Proof. apply firstn_all2. Qed.

Lemma read_loop_law ps : Forall whole ps -> forall inp rem b acc, incl inp ps ->
  buf_ok b (total inp) ->
  exists taken part inp' b', read_loop rem inp b acc = (acc ++ taken, part, inp', b')
    /\ part_ok part /\ incl inp' ps /\ buf_ok b' (total inp')
    /\ cut inp = taken ++ rest_of part ++ cut inp'
    /\ (0 < rem -> Z.of_nat (length taken) <= rem)
    /\ (0 < rem -> inp <> [] -> taken <> [])
    /\ (0 < rem -> Z.of_nat (length taken) < rem -> part = None /\ inp' = []).
Proof.
  intros W. induction inp as [|p inp IH]; intros rem b acc Hi B; simpl.
  - exists [], None, [], b. rewrite app_nil_r. simpl. intuition (auto; lia).
  - assert (Hp : whole p).
    { rewrite Forall_forall in W. apply W, Hi. simpl. auto. }
    unfold whole in Hp. pose proof (total_nonneg inp) as Ti.
    assert (Hi' : incl inp ps) by (intros x Hx; apply Hi; simpl; auto).
    destruct (rem <=? 0) eqn:E0.
    + exists [], None, (p :: inp), b. rewrite app_nil_r. simpl.
      split; [reflexivity|]. split; [exact Logic.I|]. split; [exact Hi|]. split; [exact B|].
      split; [reflexivity|]. split; [lia|]. split; [lia|lia].
    + assert (B' : buf_ok (buf_removed b (total inp)) (total inp)).
      { eapply buf_removed_ok; [exact B|]. simpl. lia. }
      destruct (Z.min (plen p) rem <? plen p) eqn:E1.
      * exists (firstn (Z.to_nat (Z.min (plen p) rem)) (p_data p)), (Some (p, Z.min (plen p) rem)),
          inp, (buf_removed b (total inp)).
        split; [reflexivity|]. split; [simpl; lia|]. split; [exact Hi'|]. split; [exact B'|].
        split; [unfold cut; simpl; rewrite app_assoc, firstn_skipn; reflexivity|].
        assert (Hl : Z.of_nat (length (firstn (Z.to_nat (Z.min (plen p) rem)) (p_data p))) = rem).
        { rewrite firstn_length. unfold plen in *. lia. }
        rewrite Hl. split; [lia|]. split; [|lia]. intros _ _ E.
        rewrite E in Hl. simpl in Hl. lia.
      * assert (Em : Z.min (plen p) rem = plen p) by lia. rewrite Em.
        rewrite (firstn_min (p_data p)) by (unfold plen; lia).
        destruct (IH (rem - plen p) (buf_removed b (total inp)) (acc ++ p_data p) Hi' B')
          as (t & pt & i' & b' & H1 & H2 & H3 & H4 & H5 & H6 & H7 & H8).
        destruct (Z.ltb_spec 0 (rem - plen p)) as [L|L].
        -- exists (p_data p ++ t), pt, i', b'. split; [rewrite H1, <- app_assoc; reflexivity|].
           split; [exact H2|]. split; [exact H3|]. split; [exact H4|].
           split.
           { unfold cut in *. simpl. rewrite H5. rewrite <- app_assoc. reflexivity. }
           rewrite app_length. unfold plen in *. specialize (H6 L).
           split; [lia|]. split.
           { intros _ _ E. apply app_eq_nil in E as [E _]. rewrite E in Hp. simpl in Hp. lia. }
           intros _ L2. apply H8; lia.
        -- (* nothing more to read *)
           assert (Er : rem = plen p) by lia.
           assert (Et : t = [] /\ pt = None /\ i' = inp /\ b' = buf_removed b (total inp)).
           { destruct inp as [|p2 inp2]; simpl in H1.
             - injection H1 as H1 <- <- <-.
               split; [|auto]. apply (f_equal (@length Z)) in H1. rewrite !app_length in H1.
               destruct t; [reflexivity|simpl in H1; lia].
             - replace (rem - plen p <=? 0) with true in H1 by lia.
               injection H1 as H1 <- <- <-.
               split; [|auto]. apply (f_equal (@length Z)) in H1. rewrite !app_length in H1.
               destruct t; [reflexivity|simpl in H1; lia]. }
           destruct Et as (-> & -> & -> & ->). rewrite app_nil_r in H1.
           exists (p_data p), None, inp, (buf_removed b (total inp)).
           split; [exact H1|]. split; [exact Logic.I|]. split; [exact Hi'|]. split; [exact B'|].
           split; [unfold cut; simpl; reflexivity|].
           unfold plen in *. split; [lia|]. split.
           { intros _ _ E. rewrite E in Hp. simpl in Hp. lia. }
           lia.
Qed.

Lemma waiting_eq r : waiting r = rest_of (r_part r) ++ cut (r_in r).
Proof. reflexivity. Qed.

Lemma no_bytes ps l : Forall whole ps -> incl l ps -> total l = 0 -> l = [].
Proof.
  intros W I T. destruct l as [|p l]; [reflexivity|]. simpl in T.
  assert (whole p) by (rewrite Forall_forall in W; apply W, I; simpl; auto).
  unfold whole in *. pose proof (total_nonneg l). lia.
Qed.

Lemma skip_skip {A} (l : list A) : forall a b, skipn (a + b) l = skipn a (skipn b l).
Proof.
  induction l as [|x l IH]; intros a b; [rewrite !skipn_nil; reflexivity|].
  destruct b as [|b]; [rewrite Nat.add_0_r; reflexivity|].
  replace (a + S b)%nat with (S (a + b)) by lia. simpl. apply IH.
Qed.

Lemma read_part_law n part : part_ok part -> 0 <= n ->
  exists acc part' rem,
    read_part n part = Some (acc, part', rem)
    /\ part_ok part' /\ rest_of part = acc ++ rest_of part'
    /\ rem = n - Z.of_nat (length acc) /\ 0 <= rem
    /\ (0 < rem -> part' = None) /\ (0 < n -> part <> None -> acc <> []).
Proof.
  intros P Hn. unfold read_part. destruct part as [[p off]|]; cbn [part_ok] in P.
  2:{ exists [], None, n. simpl. intuition (auto; lia). }
  destruct (0 <? n) eqn:E0.
  2:{ exists [], (Some (p, off)), n. simpl. intuition (auto; lia). }
  cbv zeta. rewrite assert_true by lia.
  set (c := Z.min (plen p - off) n).
  assert (Hl : Z.of_nat (length (firstn (Z.to_nat c) (skipn (Z.to_nat off) (p_data p)))) = c).
  { rewrite firstn_length, skipn_length. unfold c, plen in *. lia. }
  assert (Hne : firstn (Z.to_nat c) (skipn (Z.to_nat off) (p_data p)) <> []).
  { intros E. rewrite E in Hl. simpl in Hl. lia. }
  destruct (plen p - off <=? c) eqn:E1.
  - eexists _, None, (n - c). split; [reflexivity|]. split; [exact Logic.I|].
    split.
    { simpl. rewrite app_nil_r. symmetry. apply firstn_all2. rewrite skipn_length.
      unfold plen in *. lia. }
    split; [lia|]. split; [lia|]. auto.
  - rewrite assert_true by lia. eexists _, (Some (p, off + c)), (n - c).
    split; [reflexivity|]. split; [simpl; lia|].
    split.
    { simpl. replace (Z.to_nat (off + c)) with (Z.to_nat c + Z.to_nat off)%nat by lia.
      rewrite skip_skip. symmetry. apply firstn_skipn. }
    split; [lia|]. split; [lia|]. split; [lia|auto].
Qed.

Definition bytes_of (res : result) : list Z := match res with Got bs => bs | _ => [] end.

Lemma read_law ps g n r : numbered ps -> Forall whole ps -> rinv ps g r -> 0 <= n ->
  exists res r', read n r = Some (res, r')
    /\ rinv ps (g ++ bytes_of res) r' /\ r_next r <= r_next r'
    /\ (res = WouldBlock \/ exists bs, res = Got bs)
    /\ Z.of_nat (length (bytes_of res)) <= n
    /\ (res = WouldBlock -> waiting r' = [])
    /\ (forall bs, res = Got bs -> bs = [] -> n = 0)
    /\ (Z.of_nat (length (bytes_of res)) < n -> waiting r' = []).
Proof.
  intros N W H Hn. unfold read.
  destruct (flush_r_law _ _ _ N H) as (r1 & -> & H1 & L1 & _). ob.
  destruct ((total (r_in r1) =? 0) && _) eqn:E0.
  - assert (Hw : waiting r1 = []).
    { rewrite waiting_eq. rewrite (no_bytes ps (r_in r1) W (ri_in _ _ _ H1)) by lia.
      destruct (r_part r1); [lia|reflexivity]. }
    exists WouldBlock, r1. simpl. rewrite app_nil_r.
    split; [reflexivity|]. split; [exact H1|]. split; [exact L1|]. split; [auto|].
    split; [lia|]. split; [auto|]. split; [discriminate|auto].
  - destruct (read_part_law n (r_part r1)) as (acc & part & rem & -> & P & R & M & M0 & Q & A).
    { exact (ri_part _ _ _ H1). } { exact Hn. }
    ob.
    assert (S : exists taken part' inp b,
      (if 0 <? rem then
        let '(acc, part', inp, b) := read_loop rem (r_in r1) (r_buf r1) acc in
        (acc, match part' with Some x => Some x | None => part end, inp, b)
       else (acc, part, r_in r1, r_buf r1)) = (acc ++ taken, part', inp, b)
      /\ part_ok part' /\ incl inp ps /\ buf_ok b (total inp)
      /\ rest_of (r_part r1) ++ cut (r_in r1) = (acc ++ taken) ++ rest_of part' ++ cut inp
      /\ Z.of_nat (length (acc ++ taken)) <= n
      /\ (0 < n -> acc ++ taken <> [])
      /\ (Z.of_nat (length (acc ++ taken)) < n -> part' = None /\ inp = [])).
    { destruct (0 <? rem) eqn:Er.
      - destruct (read_loop_law ps W (r_in r1) rem (r_buf r1) acc (ri_in _ _ _ H1)
                    (ri_buf _ _ _ H1)) as (t & pt & i' & b' & -> & B1 & B2 & B3 & B4 & B5 & B6 & B7).
        assert (part = None) by (apply Q; lia). subst part.
        exists t, pt, i', b'. split; [destruct pt; reflexivity|].
        split; [exact B1|]. split; [exact B2|]. split; [exact B3|].
        split; [rewrite R, B4; simpl; rewrite app_nil_r, !app_assoc; reflexivity|].
        rewrite app_length. assert (Hr : 0 < rem) by lia. specialize (B5 Hr).
        split; [lia|]. split.
        + intros _ E. apply app_eq_nil in E as [Ea Et].
          destruct (r_part r1) as [x|] eqn:Ep; [apply A; [lia|discriminate|exact Ea]|].
          apply B6; [exact Hr| |exact Et]. intros En. rewrite En in E0. simpl in E0. lia.
        + intros L. apply B7; [exact Hr|lia].
      - exists [], part, (r_in r1), (r_buf r1). rewrite app_nil_r. split; [reflexivity|].
        split; [exact P|]. split; [exact (ri_in _ _ _ H1)|]. split; [exact (ri_buf _ _ _ H1)|].
        split; [rewrite R, app_assoc; reflexivity|]. split; [lia|]. split; [|lia].
        intros Hp E. rewrite E in M. simpl in M. lia. }
    destruct S as (taken & part' & inp & b & -> & P' & I' & B' & C' & Len & Ne & Sh).
    set (more := (0 <? total inp) || _).
    assert (H2 : rinv ps (g ++ (acc ++ taken))
                   (Rcv (r_next r1) (r_win r1) (r_unord r1) inp part' b more)).
    { destruct H1 as [X1 X2 X3 X4 X5 X6 X7 X8 X9]. constructor; simpl; auto.
      - rewrite <- X4, <- app_assoc. f_equal. rewrite (waiting_eq r1), waiting_eq. simpl.
        rewrite C', <- app_assoc. reflexivity.
      - intros Hm Ee. rewrite waiting_eq in Ee. simpl in Ee. apply app_eq_nil in Ee as [Ee1 Ee2].
        pose proof (cut_length inp) as Hc. rewrite Ee2 in Hc. simpl in Hc. unfold more in Hm.
        destruct part' as [[p off]|]; [|lia]. simpl in P', Ee1.
        apply (f_equal (@length Z)) in Ee1. rewrite skipn_length in Ee1. unfold plen in P'.
        simpl in Ee1. lia. }
    destruct (update_window_law _ _ _ H2) as (r2 & -> & H3 & En & Ew & _). ob.
    assert (Hw : part' = None /\ inp = [] -> waiting r2 = []).
    { intros [-> ->]. rewrite Ew. reflexivity. }
    assert (Eb : (Z.of_nat (length (acc ++ taken)) =? 0) && (negb (n =? 0) || negb more) = false
                 \/ ((Z.of_nat (length (acc ++ taken)) =? 0) && (negb (n =? 0) || negb more) = true
                     /\ acc ++ taken = [] /\ waiting r2 = [])).
    { destruct ((Z.of_nat (length (acc ++ taken)) =? 0) && (negb (n =? 0) || negb more)) eqn:E;
        [right|left; reflexivity]. split; [reflexivity|].
      assert (acc ++ taken = []) by (destruct (acc ++ taken); [reflexivity|simpl in E; lia]).
      split; [assumption|]. apply Hw. destruct (Z.eq_dec n 0) as [Z0|Z0].
      - assert (Em : more = false) by lia. unfold more in Em.
        pose proof (total_nonneg inp). split; [destruct part'; [lia|reflexivity]|].
        apply (no_bytes ps); auto. lia.
      - apply Sh. rewrite H0. simpl. lia. }
    destruct Eb as [Eb|(Eb & Ea & Ewt)]; rewrite Eb.
    + exists (Got (acc ++ taken)), r2. split; [reflexivity|]. simpl.
      split; [exact H3|]. split; [rewrite En; exact L1|]. split; [eauto|]. split; [exact Len|].
      split; [discriminate|]. split; [|auto].
      intros bs [= <-] E. destruct (Z.eq_dec n 0); [assumption|]. destruct Ne; [lia|exact E].
    + exists WouldBlock, r2. split; [reflexivity|]. simpl. rewrite Ea, app_nil_r in H3.
      rewrite app_nil_r. split; [exact H3|]. split; [rewrite En; exact L1|]. split; [auto|].
      split; [lia|]. split; [auto|]. split; [discriminate|auto].
Qed.

(** ** The whole *)
Record inv (ps : list pkt) (g : list Z) (y : sys) : Prop := Inv {
  iv_s : sinv ps (y_s y);
  iv_r : rinv ps g (y_r y);
  iv_net : incl (y_net y) ps;
  iv_acks : Forall (fun a => fst a <= r_next (y_r y)) (y_acks y);
  iv_unacked : s_unacked (y_s y) <= r_next (y_r y)
}.

Lemma rinv_more ps more g r : rinv ps g r -> rinv (ps ++ more) g r.
Proof.
  intros [A B C D E F G O Y]. constructor; auto.
  - rewrite app_length. lia.
  - apply incl_appl, B.
  - apply incl_appl, C.
  - rewrite D, firstn_app.
    replace (Z.to_nat (r_next r - 2) - length ps)%nat with 0%nat by lia.
    simpl. rewrite app_nil_r. reflexivity.
Qed.

Lemma acks_more n n' (l : list (Z * Z)) : n <= n' -> Forall (fun a => fst a <= n) l ->
  Forall (fun a => fst a <= n') l.
Proof. intros L. apply Forall_impl. intros a. lia. Qed.

Lemma step_law ps g ev y : inv ps g y -> good_event ev ->
  exists res y' more, step ev y = Some (res, y')
    /\ inv (ps ++ more) (g ++ bytes_of res) y'
    /\ cut more = written [ev] [res]
    /\ s_unacked (y_s y) <= s_unacked (y_s y')
    /\ (forall bs, res = Got bs -> exists n, ev = ERead n).
Proof.
  intros [S R NN AA U] Hg. destruct y as [s r net acks]. simpl in *.
  destruct ev as [bytes|n| |sh i| | |i lost|lost|n|v|v]; simpl.
  - destruct (write_law ps bytes s S) as (res & s' & more & -> & S' & U' & n & Hn & C & Hres). ob.
    exists res, (Sys s' r net acks), more. split; [reflexivity|].
    destruct Hres as [->|[-> ->]]; simpl; rewrite ?app_nil_r.
    + split; [|split; [exact C|]; split; [lia|discriminate]].
      constructor; simpl; auto; [apply rinv_more, R|apply incl_appl, NN|lia].
    + split; [|split; [exact C|]; split; [lia|discriminate]].
      constructor; simpl; auto; [apply rinv_more, R|apply incl_appl, NN|lia].
  - destruct (read_law ps g n r (si_num _ _ S) (si_whole _ _ S) R Hg)
      as (res & r' & -> & R' & L & Hres & _). ob.
    exists res, (Sys s r' net acks), []. rewrite app_nil_r. split; [reflexivity|].
    split; [|split; [destruct Hres as [->|[bs ->]]; reflexivity|]; split; [simpl; lia|eauto]].
    constructor; simpl; auto; [eapply acks_more; eauto|lia].
  - destruct (pull_law ps s S) as (S' & U' & Hp). destruct (pull s) as [[p|] s']; simpl in *.
    + exists Quiet, (Sys s' r (net ++ [p]) acks), []. rewrite !app_nil_r. split; [reflexivity|].
      split; [|split; [reflexivity|]; split; [simpl; lia|discriminate]].
      constructor; simpl; auto; [|lia]. apply incl_app; [exact NN|].
      intros x [<-|[]]. apply Hp. reflexivity.
    + exists Quiet, (Sys s' r net acks), []. rewrite !app_nil_r. split; [reflexivity|].
      split; [|split; [reflexivity|]; split; [simpl; lia|discriminate]].
      constructor; simpl; auto. lia.
  - destruct (nth_error net i) as [p|] eqn:Ei.
    + assert (Hp : In p ps) by (apply NN; eapply nth_error_In; eauto).
      destruct (arrive_law ps g sh p r (si_num _ _ S) R Hp) as (r' & -> & R' & L). ob.
      exists Quiet, (Sys s r' net acks), []. rewrite !app_nil_r. split; [reflexivity|].
      split; [|split; [reflexivity|]; split; [simpl; lia|discriminate]].
      constructor; simpl; auto; [eapply acks_more; eauto|lia].
    + exists Quiet, (Sys s r net acks), []. rewrite !app_nil_r. split; [reflexivity|].
      split; [|split; [reflexivity|]; split; [simpl; lia|discriminate]]. constructor; auto.
  - exists Quiet, (Sys s r net (acks ++ [(r_next r, r_win r)])), []. rewrite !app_nil_r.
    split; [reflexivity|].
    split; [|split; [reflexivity|]; split; [simpl; lia|discriminate]].
    constructor; simpl; auto. apply Forall_app. split; [exact AA|]. constructor; [simpl; lia|auto].
  - destruct (flush_r_law ps g r (si_num _ _ S) R) as (r' & -> & R' & L & _). ob.
    exists Quiet, (Sys s r' net acks), []. rewrite !app_nil_r. split; [reflexivity|].
    split; [|split; [reflexivity|]; split; [simpl; lia|discriminate]].
    constructor; simpl; auto; [eapply acks_more; eauto|lia].
  - destruct (nth_error acks i) as [[a w]|] eqn:Ei.
    + assert (Ha : a <= r_next r).
      { rewrite Forall_forall in AA. apply (AA (a, w)). eapply nth_error_In; eauto. }
      destruct (ack_in_law ps a w lost s S) as (s' & E & S' & U').
      assert (Mono : s_unacked s <= s_unacked s' /\ s_unacked s' <= r_next r).
      { unfold ack_in in E. cbv zeta in E.
        destruct ((s_unacked s <? a) && (a <=? s_next s)) eqn:Ev; [destruct U'; lia|].
        assert (s_unacked s' = s_unacked s); [|lia].
        match type of E with flush_s _ ?s2 = _ =>
          assert (S2 : sinv ps s2);
          [destruct (_ || _); [|exact S]; destruct S; constructor; auto|];
          destruct (flush_s_law ps lost s2 S2) as (s3 & E3 & _ & U3) end.
        rewrite E in E3. injection E3 as <-. rewrite U3. destruct (_ || _); reflexivity. }
      rewrite E. ob.
      exists Quiet, (Sys s' r net acks), []. rewrite !app_nil_r. split; [reflexivity|].
      split; [|split; [reflexivity|]; split; [simpl; lia|discriminate]].
      constructor; simpl; auto. lia.
    + exists Quiet, (Sys s r net acks), []. rewrite !app_nil_r. split; [reflexivity|].
      split; [|split; [reflexivity|]; split; [simpl; lia|discriminate]]. constructor; auto.
  - destruct (flush_s_law ps lost s S) as (s' & -> & S' & U'). ob.
    exists Quiet, (Sys s' r net acks), []. rewrite !app_nil_r. split; [reflexivity|].
    split; [|split; [reflexivity|]; split; [simpl; lia|discriminate]].
    constructor; simpl; auto. lia.
  - eexists Quiet, _, []. split; [reflexivity|]. rewrite !app_nil_r.
    split; [|split; [reflexivity|]; split; [simpl; lia|discriminate]].
    constructor; simpl; auto. destruct S; constructor; auto.
  - eexists Quiet, _, []. split; [reflexivity|]. rewrite !app_nil_r.
    split; [|split; [reflexivity|]; split; [simpl; lia|discriminate]].
    constructor; simpl; auto. destruct S; constructor; auto. simpl.
    apply buf_set_ok; [apply opt_size_ok|apply total_nonneg].
  - eexists Quiet, _, []. split; [reflexivity|]. rewrite !app_nil_r.
    split; [|split; [reflexivity|]; split; [simpl; lia|discriminate]].
    constructor; simpl; auto. destruct R; constructor; auto. simpl.
    apply buf_set_ok; [apply opt_size_ok|apply total_nonneg].
Qed.

Lemma written_cons ev evs res outs :
  written (ev :: evs) (res :: outs) = written [ev] [res] ++ written evs outs.
Proof. destruct ev; simpl; try reflexivity. destruct res; simpl; rewrite ?app_nil_r; reflexivity. Qed.

Lemma got_cons res outs : got (res :: outs) = bytes_of res ++ got outs.
Proof. destruct res; reflexivity. Qed.

Lemma run_law : forall evs ps g y, inv ps g y -> Forall good_event evs ->
  exists outs y' more, run evs y = Some (outs, y')
    /\ inv (ps ++ more) (g ++ got outs) y' /\ cut more = written evs outs
    /\ s_unacked (y_s y) <= s_unacked (y_s y').
Proof.
  induction evs as [|ev evs IH]; intros ps g y H Hg.
  - exists [], y, []. rewrite !app_nil_r. simpl. auto with zarith.
  - inversion Hg as [|? ? G1 G2]; subst. simpl.
    destruct (step_law ps g ev y H G1) as (res & y1 & m1 & -> & H1 & C1 & U1 & _). ob.
    destruct (IH _ _ _ H1 G2) as (outs & y2 & m2 & -> & H2 & C2 & U2). ob.
    exists (res :: outs), y2, (m1 ++ m2). split; [reflexivity|].
    rewrite got_cons, !app_assoc. split; [exact H2|].
    split; [|lia]. rewrite cut_app, C1, C2, <- written_cons. reflexivity.
Qed.

Lemma start_inv sb rb : inv [] [] (start sb rb).
Proof.
  assert (B : forall v, buf_ok (Buf (opt_size v) 0) 0).
  { intros v. pose proof (opt_size_ok v). unfold buf_ok, MSS in *. simpl. lia. }
  constructor; simpl; auto; [|constructor; simpl; auto; try lia; try apply incl_refl;
                              first [apply B|constructor|discriminate]
                             |apply incl_refl|lia].
  constructor; simpl; auto; try lia; try apply incl_refl.
  - intros [|i] p; discriminate.
  - constructor.
Qed.

Lemma reach_law sb rb evs : Forall good_event evs ->
  exists outs y ps, run evs (start sb rb) = Some (outs, y)
    /\ inv ps (got outs) y /\ cut ps = written evs outs.
Proof.
  intros G. destruct (run_law evs [] [] _ (start_inv sb rb) G)
    as (outs & y & more & E & H & C & _).
  exists outs, y, more. auto.
Qed.

(** What was written is what was read, what waits, and packets the sender keeps. *)
Lemma stream_law sb rb evs : Forall good_event evs ->
  exists outs y rest, run evs (start sb rb) = Some (outs, y)
    /\ written evs outs = got outs ++ waiting (y_r y) ++ concat (map p_data rest)
    /\ Forall (fun p => In p (kept (y_s y))) rest.
Proof.
  intros G. destruct (reach_law sb rb evs G) as (outs & y & ps & E & [S R NN AA U] & C).
  set (k := Z.to_nat (r_next (y_r y) - 2)).
  exists outs, y, (skipn k ps). split; [exact E|].
  split.
  - rewrite app_assoc, (ri_stream _ _ _ R). fold k.
    change (concat (map p_data (skipn k ps))) with (cut (skipn k ps)).
    rewrite <- cut_app, firstn_skipn. symmetry. exact C.
  - apply Forall_forall. intros p Hp. apply (si_kept _ _ S).
    + rewrite <- (firstn_skipn k ps). apply in_or_app. auto.
    + apply In_nth_error in Hp as [i Hi].
      assert (Hi' : nth_error ps (k + i) = Some p).
      { rewrite <- Hi. rewrite <- (firstn_skipn k ps) at 1.
        pose proof (ri_next _ _ _ R). 
        assert (k <= length ps)%nat by lia.
        rewrite nth_error_app2; rewrite firstn_length_le by lia; [|lia].
        f_equal. lia. }
      pose proof (si_num _ _ S _ _ Hi'). pose proof (ri_next _ _ _ R). lia.
Qed.

Lemma read_result_law sb rb evs outs y n : Forall good_event evs ->
  run evs (start sb rb) = Some (outs, y) -> 0 <= n ->
  exists res y', step (ERead n) y = Some (res, y')
    /\ (res = WouldBlock /\ waiting (y_r y') = []
        \/ exists bs, res = Got bs /\ Z.of_nat (length bs) <= n
             /\ (0 < n -> bs <> []) /\ (Z.of_nat (length bs) < n -> waiting (y_r y') = [])).
Proof.
  intros G E Hn. destruct (reach_law sb rb evs G) as (o & y0 & ps & E0 & [S R NN AA U] & C).
  rewrite E in E0. injection E0 as <- <-.
  destruct (read_law ps _ n (y_r y) (si_num _ _ S) (si_whole _ _ S) R Hn)
    as (res & r' & Er & R' & L & Hres & Hl & Hb & Hz & Hs).
  simpl. rewrite Er. ob. exists res. eexists. split; [reflexivity|]. simpl.
  destruct Hres as [->|[bs ->]]; [left; auto|right]. exists bs. split; [reflexivity|].
  simpl in *. split; [exact Hl|]. split; [|exact Hs].
  intros Hp Eb. specialize (Hz bs eq_refl Eb). lia.
Qed.

(** ** A packet sent again although it has been acknowledged is kept for ever *)
Lemma packet_out_q p s : s_q (packet_out p s) = s_q s.
Proof. unfold packet_out. destruct (has_seq _ _); reflexivity. Qed.

Lemma retransmit_q n p s : In p (s_q s) -> p_seq p <> n -> In p (s_q (retransmit n s)).
Proof.
  intros H Hn. unfold retransmit. destruct (find _ _) as [p'|]; [|exact H].
  rewrite packet_out_q. simpl. apply filter_In. split; [exact H|].
  destruct (p_seq p =? n) eqn:E; [lia|reflexivity].
Qed.

Lemma flush_s_q lost s s' p : flush_s lost s = Some s' -> In p (s_q s) -> ~ In (p_seq p) lost ->
  In p (s_q s').
Proof.
  unfold flush_s. cbv zeta. intros E H Hn.
  assert (H1 : In p (s_q (fold_left (fun s n => retransmit n s) lost s))).
  { clear E. revert s H. induction lost as [|n lost IH]; intros s H; simpl; [exact H|].
    apply IH; [intros X; apply Hn; simpl; auto|]. apply retransmit_q; [exact H|].
    intros X. apply Hn. simpl. auto. }
  destruct (flush_out _ _ _ _) as [[t o]|]; ob_in E; [|discriminate].
  injection E as <-. exact H1.
Qed.

Lemma segment_q : forall fuel bytes s s', segment fuel bytes s = Some s' -> s_q s' = s_q s.
Proof.
  induction fuel as [|fuel IH]; intros bytes s s' E.
  - destruct bytes; [injection E as <-; reflexivity|discriminate].
  - destruct bytes as [|b bytes]; [injection E as <-; reflexivity|]. cbn [segment] in E.
    cbv zeta in E. apply IH in E. rewrite E, packet_out_q. reflexivity.
Qed.

Lemma stale_step p ev y res y' : step ev y = Some (res, y') ->
  In p (s_q (y_s y)) -> p_seq p < s_lastack (y_s y) -> ~ asks (p_seq p) ev ->
  In p (s_q (y_s y')).
Proof.
  intros E H L A. destruct ev as [bytes|n| |sh i| | |i lost|lost|n|v|v]; simpl in E, A.
  - unfold write in E. destruct (space_out (y_s y)); ob_in E; [|discriminate]. cbv zeta in E.
    destruct (segment _ _ _) as [s1|] eqn:E1; ob_in E; [|discriminate].
    destruct (flush_s [] s1) as [s2|] eqn:E2; ob_in E; [|discriminate].
    injection E as <- <-. simpl. eapply flush_s_q; [exact E2| |intros []].
    rewrite (segment_q _ _ _ _ E1). exact H.
  - destruct (read n (y_r y)) as [[x r']|]; ob_in E; [|discriminate]. injection E as <- <-. exact H.
  - unfold pull in E. destruct (s_out (y_s y)); injection E as <- <-; [exact H|]. simpl.
    destruct (_ && _); [apply in_or_app; auto|exact H].
  - destruct (nth_error _ _); [|injection E as <- <-; exact H].
    destruct (arrive _ _ _); ob_in E; [|discriminate]. injection E as <- <-. exact H.
  - injection E as <- <-. exact H.
  - destruct (flush_r _); ob_in E; [|discriminate]. injection E as <- <-. exact H.
  - destruct (nth_error _ _) as [[a w]|]; [|injection E as <- <-; exact H].
    destruct (ack_in a w lost (y_s y)) as [s'|] eqn:Ea; ob_in E; [|discriminate].
    injection E as <- <-. simpl. unfold ack_in in Ea. cbv zeta in Ea.
    eapply flush_s_q; [exact Ea| |exact A].
    assert (Hf : In p (filter (fun x => negb ((s_lastack (y_s y) <=? p_seq x) && (p_seq x <? a)))
                       (s_q (y_s y)))).
    { apply filter_In. split; [exact H|]. destruct (s_lastack (y_s y) <=? p_seq p) eqn:E1; [lia|].
      reflexivity. }
    destruct (_ || _); simpl; destruct (_ && _); simpl; auto.
  - destruct (flush_s lost (y_s y)) as [s'|] eqn:Ef; ob_in E; [|discriminate].
    injection E as <- <-. simpl. eapply flush_s_q; eauto.
  - injection E as <- <-. exact H.
  - injection E as <- <-. exact H.
  - injection E as <- <-. exact H.
Qed.

Lemma stale_run p : forall evs ps g y, inv ps g y -> Forall good_event evs ->
  Forall (fun ev => ~ asks (p_seq p) ev) evs -> In p (s_q (y_s y)) ->
  p_seq p < s_lastack (y_s y) ->
  exists outs y', run evs y = Some (outs, y') /\ In p (s_q (y_s y')).
Proof.
  induction evs as [|ev evs IH]; intros ps g y I G A H L; [exists [], y; auto|].
  inversion G as [|? ? G1 G2]; inversion A as [|? ? A1 A2]; subst. simpl.
  destruct (step_law ps g ev y I G1) as (res & y1 & m & E & I1 & _ & U & _).
  pose proof (stale_step _ _ _ _ _ E H L A1) as H1.
  pose proof (si_ack _ _ (iv_s _ _ _ I)). pose proof (si_ack _ _ (iv_s _ _ _ I1)).
  rewrite E. ob.
  destruct (IH _ _ _ I1 G2 A2 H1 ltac:(lia)) as (outs & y2 & -> & H3). ob. eauto.
Qed.

Lemma in_total p l : In p l -> plen p <= total l.
Proof.
  induction l as [|x l IH]; intros []; simpl; subst.
  - pose proof (total_nonneg l). lia.
  - pose proof (plen_nonneg x). specialize (IH H). lia.
Qed.

Lemma stale_law sb rb evs outs y p : Forall good_event evs ->
  run evs (start sb rb) = Some (outs, y) -> In p (s_q (y_s y)) -> p_seq p < s_lastack (y_s y) ->
  forall evs', Forall good_event evs' -> Forall (fun ev => ~ asks (p_seq p) ev) evs' ->
  exists outs' y', run evs' y = Some (outs', y') /\ 0 < out_length (y_s y').
Proof.
  intros G E H L evs' G' A.
  destruct (reach_law sb rb evs G) as (o & y0 & ps & E0 & I & C).
  rewrite E in E0. injection E0 as <- <-.
  destruct (stale_run p evs' _ _ y I G' A H L) as (outs' & y' & E' & H').
  exists outs', y'. split; [exact E'|]. unfold out_length.
  assert (W : whole p).
  { pose proof (si_whole _ _ (iv_s _ _ _ I)) as W. rewrite Forall_forall in W. apply W.
    apply (si_from _ _ (iv_s _ _ _ I)), in_kept. auto. }
  unfold whole in W. pose proof (in_total _ _ H'). pose proof (total_nonneg (s_thr (y_s y'))). lia.
Qed.
