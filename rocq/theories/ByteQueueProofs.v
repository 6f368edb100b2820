(** Proofs about the byte queue. *)
From Verif Require Import Base ByteQueueModel ByteQueueSpec.

Section Proofs.
Context {B : Type}.
Implicit Types (q : bq B) (l : list (chunk B)) (d : list B).

Definition citems (c : chunk B) : list (item B) :=
  match c_type c with Stream => map IByte (c_data c) | Packet => [IPkt (c_data c)] end.
Definition items l : list (item B) := flat_map citems l.
Definition full (c : chunk B) : Prop := c_type c = Stream -> c_data c <> [].

Lemma content_items q : content q = items (bq_bytes q).
Proof. reflexivity. Qed.
Lemma items_app l l' : items (l ++ l') = items l ++ items l'.
Proof. apply flat_map_app. Qed.
Lemma total_app (a b : list (item B)) : total_bytes (a ++ b) = (total_bytes a + total_bytes b)%nat.
Proof. induction a as [|i a IH]; cbn; [reflexivity|]. rewrite IH. lia. Qed.
Lemma total_stream d : total_bytes (map IByte d) = length d.
Proof. induction d as [|b d IH]; cbn; [reflexivity|]. now rewrite IH. Qed.
Lemma leading_app d (l : list (item B)) : leading (map IByte d ++ l) = d ++ leading l.
Proof. induction d as [|b d IH]; cbn; [reflexivity|]. now rewrite IH. Qed.

Record wf q : Prop := {
  wf_len : bq_length q = total_bytes (content q);
  wf_unused : bq_unused q <> Some O
}.
Lemma wf_new cap : wf (bq_new cap).
Proof. split; cbn; [reflexivity|discriminate]. Qed.
Lemma wf_set_unused q u : wf q -> u <> Some O -> wf (set_unused q u).
Proof. intros W N. split; cbn; [apply W|exact N]. Qed.

Lemma push_chunk_ok q d m t : wf q ->
  wf (fst (push_chunk q d m t)) /\
  content (fst (push_chunk q d m t)) = content q ++ citems (mkChunk d m t) /\
  bq_bytes (fst (push_chunk q d m t)) = bq_bytes q ++ [mkChunk d m t] /\
  bq_cap (fst (push_chunk q d m t)) = bq_cap q.
Proof.
  intros W. assert (E : content (fst (push_chunk q d m t)) = content q ++ citems (mkChunk d m t)).
  { rewrite !content_items. cbn. rewrite items_app. cbn. now rewrite app_nil_r. }
  split; [|split; [exact E|split; reflexivity]].
  split; [|cbn; apply W]. rewrite E, total_app, <- (wf_len _ W). cbn. destruct t; cbn.
  - now rewrite total_stream.
  - now rewrite Nat.add_0_r.
Qed.

Lemma merge_ok l d l' : try_merge l d = Some l' ->
  items l' = items l ++ map IByte d /\ (Forall full l -> Forall full l').
Proof.
  revert l'. induction l as [|c l IH]; intros l' E; [discriminate|]. cbn in E.
  destruct l as [|c' l].
  - destruct c as [data mu []]; cbn in E; [|discriminate]. destruct mu; [|discriminate].
    inversion E; subst. cbn. rewrite map_app, !app_nil_r. split; [reflexivity|].
    intros F. constructor; [|constructor]. inversion F as [|? ? F1 ?]; subst. intros _. cbn.
    specialize (F1 eq_refl). cbn in F1. destruct data; [congruence|discriminate].
  - destruct (try_merge (c' :: l) d) as [r|]; cbn [obind] in E; [|discriminate]. inversion E; subst.
    destruct (IH _ eq_refl) as (E1 & F1). split.
    + change (items (c :: r)) with (citems c ++ items r). rewrite E1.
      change (items (c :: c' :: l)) with (citems c ++ items (c' :: l)). now rewrite app_assoc.
    + intros F. inversion F; subst. constructor; auto.
Qed.
Lemma add_stream_ok q d u : wf q -> d <> [] ->
  wf (add_stream q d u) /\ content (add_stream q d u) = content q ++ map IByte d /\
  bq_cap (add_stream q d u) = bq_cap q /\
  (Forall full (bq_bytes q) -> Forall full (bq_bytes (add_stream q d u))).
Proof.
  intros W Hd. unfold add_stream.
  destruct (if u then try_merge (bq_bytes q) d else None) as [l|] eqn:E.
  - destruct u; [|discriminate]. destruct (merge_ok _ _ _ E) as (E1 & F1).
    split; [|split; [|split]]; cbn [bq_bytes bq_cap]; auto.
    split; [|cbn; apply W]. rewrite content_items. cbn [bq_bytes bq_length]. rewrite E1, <- content_items, total_app, total_stream, (wf_len _ W). reflexivity.
  - destruct (push_chunk_ok q d true Stream W) as (W' & E1 & E2 & E3).
    split; [exact W'|]. split; [exact E1|]. split; [exact E3|]. rewrite E2. intros F. apply Forall_app. split; [exact F|].
    constructor; [|constructor]. intros _. exact Hd.
Qed.

(** * push_stream *)
Lemma read_spec n (src : reader B) : (0 < n)%nat ->
  match r_read n src with
  | (RFail i, src') => offered false src = [] /\ ~ ends src /\
       (exists r, src = r :: src' /\ r = (if i : bool then RIntr else RErr)) /\
       (i = true -> offered true src = offered true src') /\ (i = false -> offered true src = []) /\
       (reader_size src' < reader_size src)%nat
  | (ROk [], _) => offered false src = [] /\ offered true src = [] /\ ends src
  | (ROk l, src') => offered false src = l ++ offered false src' /\ offered true src = l ++ offered true src' /\
       (length l <= n)%nat /\ (ends src <-> ends src') /\ (reader_size src' < reader_size src)%nat
  end.
Proof.
  intros N. destruct n as [|n]; [lia|]. destruct src as [|[[|b l]| |] src].
  - cbn. auto.
  - cbn. auto.
  - cbn [r_read]. assert (Hl := firstn_skipn (S n) (b :: l)). 
    assert (Hlen : (length (firstn (S n) (b :: l)) <= S n)%nat) by apply firstn_le_length.
    assert (Hcut : length (b :: l) = (length (firstn (S n) (b :: l)) + length (skipn (S n) (b :: l)))%nat)
      by (rewrite <- app_length, Hl; reflexivity).
    assert (Hf : firstn (S n) (b :: l) = b :: firstn n l) by reflexivity.
    rewrite Hf in *. remember (firstn n l) as f. remember (skipn (S n) (b :: l)) as s. clear Heqf Heqs Hf.
    cbn [offered ends reader_size]. destruct s as [|c s].
    + rewrite app_nil_r in Hl. rewrite <- Hl. split; [reflexivity|]. split; [reflexivity|]. split; [exact Hlen|].
      split; [tauto|]. cbn. lia.
    + cbn [offered ends reader_size]. split; [rewrite <- Hl at 1; now rewrite <- app_assoc|].
      split; [rewrite <- Hl at 1; now rewrite <- app_assoc|]. split; [exact Hlen|]. split; [tauto|].
      cbn [length] in *. lia.
  - cbn. repeat split; auto; try discriminate. now exists RIntr.
  - cbn. repeat split; auto; try discriminate. now exists RErr.
Qed.

Lemma push_stream_loop_ok : forall fuel q src orc total, wf q -> (0 < bq_cap q)%nat -> (reader_size src < fuel)%nat ->
  exists q' res, push_stream_loop fuel q src orc total = Some (q', res) /\ wf q' /\
    content q' = content q ++ map IByte (offered false src) /\ bq_cap q' = bq_cap q /\
    (ends src -> res = inl (total + length (offered false src))%nat) /\
    (~ ends src -> exists e, res = inr e) /\
    (Forall full (bq_bytes q) -> Forall full (bq_bytes q')).
Proof.
  induction fuel as [|fuel IH]; intros q src orc total W C F; [lia|]. cbn [push_stream_loop].
  set (u := match bq_unused q with Some x => x | None => bq_cap q end).
  assert (U : (0 < u)%nat).
  { unfold u. pose proof (wf_unused _ W). destruct (bq_unused q) as [x|]; [|exact C]. destruct x; [congruence|lia]. }
  pose proof (read_spec u src U) as R. destruct (r_read u src) as [[l|i] src'].
  - destruct l as [|b l].
    + destruct R as (-> & _ & E). eexists; eexists. split; [reflexivity|]. rewrite app_nil_r, Nat.add_0_r.
      destruct (Nat.eqb (u - length []) 0) eqn:Z; (split; [|split; [reflexivity|split; [reflexivity|split; [auto|split; [tauto|auto]]]]]).
      * apply wf_set_unused; [exact W|discriminate].
      * apply wf_set_unused; [apply wf_set_unused; [exact W|discriminate]|]. apply Nat.eqb_neq in Z. congruence.
    + destruct R as (O1 & _ & Ln & En & Sz). remember (b :: l) as bytes eqn:Eb.
      assert (NE : bytes <> []) by (subst; discriminate).
      set (q1 := if Nat.eqb (u - length bytes) 0 then set_unused q None
                 else set_unused (set_unused q None) (Some (u - length bytes)%nat)).
      assert (W1 : wf q1).
      { unfold q1. destruct (Nat.eqb (u - length bytes) 0) eqn:Z.
        - apply wf_set_unused; [exact W|discriminate].
        - apply wf_set_unused; [apply wf_set_unused; [exact W|discriminate]|]. apply Nat.eqb_neq in Z. congruence. }
      assert (B1 : bq_bytes q1 = bq_bytes q /\ bq_cap q1 = bq_cap q) by (unfold q1; destruct (Nat.eqb _ _); auto).
      destruct B1 as (B1 & C1).
      destruct (add_stream_ok q1 bytes (hd false orc) W1 NE) as (W2 & E2 & C2 & F2).
      destruct (IH (add_stream q1 bytes (hd false orc)) src' (tl orc) (total + length bytes)%nat W2)
        as (q' & res & E & W' & Ct & Cp & Re & Rf & Ff); [lia|lia|].
      exists q', res. split; [rewrite Eb in *; exact E|]. split; [exact W'|].
      split.
      { rewrite Ct, E2, O1. unfold content at 1. rewrite B1. rewrite map_app, app_assoc. reflexivity. }
      split; [lia|]. split.
      { intros He. rewrite Re by tauto. rewrite O1, app_length. f_equal. lia. }
      split; [tauto|]. rewrite B1 in F2. tauto.
  - destruct R as (-> & NE & _). eexists; eexists. split; [reflexivity|]. rewrite app_nil_r.
    split; [apply wf_set_unused; [exact W|discriminate]|]. split; [reflexivity|]. split; [reflexivity|].
    split; [tauto|]. split; [eauto|auto].
Qed.
Lemma push_stream_ok q src orc : wf q -> (0 < bq_cap q)%nat ->
  exists q' res, push_stream q src orc = Some (q', res) /\ wf q' /\
    content q' = content q ++ map IByte (offered false src) /\ bq_cap q' = bq_cap q /\
    (ends src -> res = inl (length (offered false src))) /\ (~ ends src -> exists e, res = inr e) /\
    (Forall full (bq_bytes q) -> Forall full (bq_bytes q')).
Proof. intros W C. apply push_stream_loop_ok; auto. Qed.

(** * push_packet *)
Lemma read_exact_ok : forall fuel n (src : reader B), (reader_size src < fuel)%nat ->
  exists r, read_exact fuel n src = Some r /\
    ((n <= length (offered true src))%nat -> r = inl (firstn n (offered true src))) /\
    ((length (offered true src) < n)%nat -> exists e, r = inr e).
Proof.
  induction fuel as [|fuel IH]; intros n src F; [lia|]. cbn [read_exact].
  destruct n as [|n']; [eexists; split; [reflexivity|]; split; [reflexivity|lia]|].
  set (n := S n') in *. pose proof (read_spec n src ltac:(unfold n; lia)) as R.
  destruct (r_read n src) as [[l|i] src'].
  - destruct l as [|b l].
    + destruct R as (_ & E & _). rewrite E. eexists. split; [reflexivity|]. split; [unfold n; cbn; lia|eauto].
    + destruct R as (_ & O1 & Ln & _ & Sz). remember (b :: l) as bytes.
      destruct (IH (n - length bytes)%nat src') as (r & E & A1 & A2); [lia|].
      exists (match r with inl l' => inl (bytes ++ l') | inr e => inr e end).
      split; [subst bytes; rewrite E; reflexivity|]. rewrite O1, app_length. split.
      * intros H. rewrite A1 by lia. f_equal. rewrite firstn_app. f_equal. symmetry. apply firstn_all2. lia.
      * intros H. destruct (A2 ltac:(lia)) as (e & ->). eauto.
  - destruct R as (_ & _ & _ & T & Fl & Sz). destruct i.
    + rewrite (T eq_refl). apply IH. lia.
    + rewrite (Fl eq_refl). eexists. split; [reflexivity|]. split; [unfold n; cbn; lia|eauto].
Qed.
Lemma push_packet_ok q src n : wf q ->
  exists q' r, push_packet q src n = Some (q', r) /\ wf q' /\ bq_cap q' = bq_cap q /\
    (Forall full (bq_bytes q) -> Forall full (bq_bytes q')) /\
    ((n <= length (offered true src))%nat -> r = inl tt /\ content q' = content q ++ [IPkt (firstn n (offered true src))]) /\
    ((length (offered true src) < n)%nat -> (exists e, r = inr e) /\ q' = q).
Proof.
  intros W. unfold push_packet.
  destruct (read_exact_ok (S (S (reader_size src))) n src) as (r & E & A1 & A2); [lia|]. rewrite E. ob.
  destruct (Nat.le_gt_cases n (length (offered true src))) as [L|L].
  - rewrite A1 by assumption. eexists; eexists. split; [reflexivity|].
    match goal with |- context [set_unused q ?u] => set (u0 := u) end.
    assert (U : u0 <> Some O).
    { unfold u0. pose proof (wf_unused _ W). destruct (bq_unused q) as [x|]; [|discriminate].
      destruct (Nat.leb n x); destruct (Nat.eqb _ 0) eqn:Z; try discriminate; apply Nat.eqb_neq in Z; congruence. }
    assert (W1 := wf_set_unused _ _ W U).
    destruct (push_chunk_ok (set_unused q u0) (firstn n (offered true src)) true Packet W1) as (W2 & E2 & E3 & E4).
    split; [exact W2|]. split; [exact E4|]. split.
    { rewrite E3. intros Fu. apply Forall_app. split; [exact Fu|]. constructor; [|constructor]. intros C. discriminate. }
    split; [intros _; split; [reflexivity|exact E2]|lia].
  - destruct (A2 L) as (e & ->). eexists; eexists. split; [reflexivity|]. split; [exact W|]. split; [reflexivity|].
    split; [auto|]. split; [lia|]. intros _. split; [eauto|reflexivity].
Qed.

(** * Writers *)
Lemma write_le w n k w' : w_write w n = (inl k, w') -> (k <= n)%nat.
Proof. unfold w_write. destruct (w_script w) as [|[] s]; intros E; inversion E; subst; lia. Qed.

(** * pop_stream *)
Lemma pop_stream_ok : forall fuel q w total q' res out, wf q -> pop_stream fuel q w total = Some (q', res, out) ->
  wf q' /\ content q = map IByte out ++ content q' /\ bq_cap q' = bq_cap q /\
  (forall n, res = inl n -> n = (total + length out)%nat) /\
  (Forall full (bq_bytes q) -> Forall full (bq_bytes q')).
Proof.
  induction fuel as [|fuel IH]; intros q w total q' res out W E; [discriminate|]. cbn [pop_stream] in E.
  assert (Stop : forall r, Some (q, r, []) = Some (q', res, out) ->
    (forall n, r = inl n -> n = total) ->
    wf q' /\ content q = map IByte out ++ content q' /\ bq_cap q' = bq_cap q /\
    (forall n, res = inl n -> n = (total + length out)%nat) /\
    (Forall full (bq_bytes q) -> Forall full (bq_bytes q'))).
  { intros r Er Hr. inversion Er; subst. cbn. split; [exact W|]. split; [reflexivity|]. split; [reflexivity|].
    split; [intros n Hn; specialize (Hr n Hn); lia|auto]. }
  destruct (bq_bytes q) as [|c r] eqn:Eb; [apply (Stop _ E); congruence|].
  destruct (negb (is_stream (c_type c))) eqn:Es; [apply (Stop _ E); congruence|].
  destruct (w_write w (length (c_data c))) as [[copied|e] w'] eqn:Ew.
  - destruct (Nat.eqb_spec copied 0) as [Z|Z]; [apply (Stop _ E); congruence|].
    pose proof (write_le _ _ _ _ Ew) as Le.
    destruct c as [data mu ty]. cbn [c_type c_data c_mut] in *. destruct ty; [|discriminate].
    unfold assert_then in E. destruct (Nat.leb copied (bq_length q)); [|discriminate].
    set (rest := match skipn copied data with [] => r | _ => mkChunk (skipn copied data) mu Stream :: r end) in *.
    set (q1 := mkBq rest (bq_unused q) (bq_length q - copied) (bq_cap q)) in *.
    assert (Ir : items rest = map IByte (skipn copied data) ++ items r).
    { unfold rest. destruct (skipn copied data) as [|b s] eqn:Sk; reflexivity. }
    assert (Ec : content q = map IByte (firstn copied data) ++ content q1).
    { rewrite !content_items, Eb. change (items (mkChunk data mu Stream :: r)) with (map IByte data ++ items r).
      change (items (bq_bytes q1)) with (items rest).
      rewrite Ir, app_assoc, <- map_app, firstn_skipn. reflexivity. }
    assert (W1 : wf q1).
    { split; [|cbn; apply W]. pose proof (wf_len _ W) as L. rewrite Ec, total_app, total_stream, firstn_length in L.
      cbn [bq_length q1]. lia. }
    destruct (pop_stream fuel q1 w' (total + copied)) as [[[q2 res2] out2]|] eqn:Ep; cbn [obind] in E; [|discriminate].
    inversion E; subst. destruct (IH _ _ _ _ _ _ W1 Ep) as (W2 & E2 & C2 & R2 & F2).
    split; [exact W2|]. split; [rewrite Ec, E2, map_app, app_assoc; reflexivity|]. split; [exact C2|]. split.
    + intros n Hn. rewrite (R2 n Hn), app_length, firstn_length. lia.
    + intros F. apply F2. cbn [bq_bytes q1]. inversion F; subst. unfold rest.
      destruct (skipn copied data) eqn:Sk; [assumption|]. constructor; [|assumption]. intros _. cbn. discriminate.
  - destruct e.
    + rewrite <- Eb. eapply IH; eauto.
    + destruct (Nat.eqb total 0); apply (Stop _ E); congruence.
    + apply (Stop _ E); congruence.
    + apply (Stop _ E); congruence.
Qed.

Lemma write_script w n x w' : w_write w n = (x, w') ->
  (exists e s, w_script w = e :: s /\ w' = mkW s (w_cap w)) \/
  (w_script w = [] /\ x = inl (Nat.min (w_cap w) n) /\ w' = mkW [] (w_cap w - Nat.min (w_cap w) n)).
Proof.
  unfold w_write. destruct (w_script w) as [|e s] eqn:Es; intros E.
  - right. inversion E; subst. auto.
  - left. exists e, s. destruct e; inversion E; auto.
Qed.

Lemma pop_stream_total : forall fuel q w total, wf q ->
  (length (w_script w) + length (bq_bytes q) + 1 < fuel \/ (w_script w = [] /\ w_cap w = 0 /\ 0 < fuel))%nat ->
  pop_stream fuel q w total <> None.
Proof.
  induction fuel as [|fuel IH]; intros q w total W F; [lia|]. cbn [pop_stream].
  destruct (bq_bytes q) as [|c r] eqn:Eb; [discriminate|].
  destruct (negb (is_stream (c_type c))) eqn:Es; [discriminate|].
  destruct (w_write w (length (c_data c))) as [[copied|e] w'] eqn:Ew.
  - destruct (Nat.eqb_spec copied 0) as [Z|Z]; [discriminate|].
    pose proof (write_le _ _ _ _ Ew) as Le.
    destruct c as [data mu ty]. cbn [c_type c_data c_mut] in *. destruct ty; [|discriminate].
    set (rest := match skipn copied data with [] => r | _ => mkChunk (skipn copied data) mu Stream :: r end) in *.
    set (q1 := mkBq rest (bq_unused q) (bq_length q - copied) (bq_cap q)) in *.
    assert (Ir : items rest = map IByte (skipn copied data) ++ items r).
    { unfold rest. destruct (skipn copied data) as [|b s] eqn:Sk; reflexivity. }
    assert (Ec : content q = map IByte (firstn copied data) ++ content q1).
    { rewrite !content_items, Eb. change (items (mkChunk data mu Stream :: r)) with (map IByte data ++ items r).
      change (items (bq_bytes q1)) with (items rest).
      rewrite Ir, app_assoc, <- map_app, firstn_skipn. reflexivity. }
    pose proof (wf_len _ W) as L. rewrite Ec, total_app, total_stream, firstn_length in L.
    assert (W1 : wf q1). { split; [cbn [bq_length q1]; lia|cbn; apply W]. }
    rewrite assert_true by (apply Nat.leb_le; lia).
    assert (P : pop_stream fuel q1 w' (total + copied) <> None).
    { apply IH; [exact W1|].
      destruct (write_script _ _ _ _ Ew) as [(e & s & Hs & ->)|(Hs & Hx & ->)]; cbn [w_script w_cap].
      - rewrite Hs in F. cbn [length] in F. left. cbn [bq_bytes q1]. unfold rest.
        destruct F as [F|(? & _)]; [|discriminate]. destruct (skipn copied data); cbn [length]; lia.
      - rewrite Hs in F. cbn [length] in *. inversion Hx as [Hc]. destruct F as [F|(_ & C0 & F)]; [|lia].
        destruct (Nat.le_gt_cases (length data) (w_cap w)) as [Big|Small].
        + left. cbn [bq_bytes q1]. unfold rest. rewrite skipn_all2 by lia. lia.
        + right. split; [reflexivity|]. lia. }
    destruct (pop_stream fuel q1 w' (total + copied)) as [[[q2 res2] out2]|]; [ob; discriminate|congruence].
  - destruct (write_script _ _ _ _ Ew) as [(ev & s & Hs & ->)|(Hs & Hx & ->)]; [|discriminate].
    destruct e; try discriminate.
    + apply IH; [exact W|]. left. cbn [w_script]. rewrite Hs in F. cbn [length] in F. destruct F as [F|(? & _)]; [|discriminate].
      rewrite Eb. cbn [length]. lia.
    + destruct (Nat.eqb total 0); discriminate.
Qed.

Lemma leading_len_full l : Forall full l -> match items l with IByte _ :: _ => True | _ => leading (items l) = [] end.
Proof. intros _. destruct (items l) as [|[b|p] r]; auto. Qed.

(** Reading into a slice *)
Lemma pop_stream_slice : forall fuel q n total q' res out, wf q -> Forall full (bq_bytes q) ->
  pop_stream fuel q (slice n) total = Some (q', res, out) ->
  res = inl (total + length out)%nat /\ length out = Nat.min n (length (leading (content q))).
Proof.
  induction fuel as [|fuel IH]; intros q n total q' res out W Fu E; [discriminate|]. cbn [pop_stream] in E.
  destruct (bq_bytes q) as [|c r] eqn:Eb.
  { inversion E; subst. rewrite content_items, Eb. cbn. rewrite Nat.add_0_r, Nat.min_0_r. auto. }
  destruct c as [data mu ty]. cbn [c_type c_data c_mut is_stream] in *. destruct ty.
  2: { cbn in E. inversion E; subst. rewrite content_items, Eb. cbn. rewrite Nat.add_0_r, Nat.min_0_r. auto. }
  cbn [negb is_stream] in E. unfold w_write in E. cbn [w_script slice w_cap] in E.
  inversion Fu as [|? ? F1 F2]; subst. specialize (F1 eq_refl). cbn in F1.
  assert (Dl : (0 < length data)%nat) by (destruct data; cbn; [congruence|lia]).
  assert (Lc : leading (content q) = data ++ leading (items r)).
  { rewrite content_items, Eb. change (items (mkChunk data mu Stream :: r)) with (map IByte data ++ items r).
    apply leading_app. }
  destruct (Nat.eqb_spec (Nat.min n (length data)) 0) as [Z|Z].
  { inversion E; subst. cbn. rewrite Nat.add_0_r. split; [reflexivity|]. replace n with O by lia. lia. }
  unfold assert_then in E. destruct (Nat.leb (Nat.min n (length data)) (bq_length q)); [|discriminate].
  set (copied := Nat.min n (length data)) in *.
  set (rest := match skipn copied data with [] => r | _ => mkChunk (skipn copied data) mu Stream :: r end) in *.
  set (q1 := mkBq rest (bq_unused q) (bq_length q - copied) (bq_cap q)) in *.
  assert (Ir : items rest = map IByte (skipn copied data) ++ items r).
  { unfold rest. destruct (skipn copied data) as [|b s] eqn:Sk; reflexivity. }
  assert (Ec : content q = map IByte (firstn copied data) ++ content q1).
  { rewrite !content_items, Eb. change (items (mkChunk data mu Stream :: r)) with (map IByte data ++ items r).
    change (items (bq_bytes q1)) with (items rest).
    rewrite Ir, app_assoc, <- map_app, firstn_skipn. reflexivity. }
  assert (W1 : wf q1).
  { split; [|cbn; apply W]. pose proof (wf_len _ W) as L. rewrite Ec, total_app, total_stream, firstn_length in L.
    cbn [bq_length q1]. lia. }
  assert (Fu1 : Forall full (bq_bytes q1)).
  { cbn [bq_bytes q1]. unfold rest. destruct (skipn copied data); [assumption|]. constructor; [|assumption].
    intros _. cbn. discriminate. }
  change (mkW [] (n - copied)) with (slice (n - copied)) in E.
  destruct (pop_stream fuel q1 (slice (n - copied)) (total + copied)) as [[[q2 res2] out2]|] eqn:Ep; cbn [obind] in E; [|discriminate].
  inversion E; subst. destruct (IH _ _ _ _ _ _ W1 Fu1 Ep) as (R2 & L2).
  rewrite R2, app_length, firstn_length, L2. rewrite Ec, leading_app, app_length, firstn_length.
  split; [f_equal|]; lia.
Qed.

(** * write_packet *)
Lemma write_packet_ok : forall fuel d w total res out, write_packet fuel d w total = Some (res, out) ->
  (exists rest, d = out ++ rest) /\ (forall n, res = inl n -> n = (total + length out)%nat).
Proof.
  induction fuel as [|fuel IH]; intros d w total res out E; [discriminate|]. cbn [write_packet] in E.
  destruct (w_write w (length d)) as [[copied|e] w'] eqn:Ew.
  - destruct (Nat.eqb_spec copied 0) as [Z|Z].
    + inversion E; subst. split; [exists d; reflexivity|]. intros n Hn. inversion Hn. cbn. lia.
    + destruct (write_packet fuel (skipn copied d) w' (total + copied)) as [[res2 out2]|] eqn:Ep; cbn [obind] in E; [|discriminate].
      inversion E; subst. destruct (IH _ _ _ _ _ Ep) as ((rest & Er) & Hn). pose proof (write_le _ _ _ _ Ew).
      split.
      * exists rest. rewrite <- app_assoc, <- Er. symmetry. apply firstn_skipn.
      * intros n H1. rewrite (Hn n H1), app_length, firstn_length. lia.
  - destruct e; try discriminate; [eapply IH; eauto| |]; inversion E; subst; (split; [exists d; reflexivity|discriminate]).
Qed.
Lemma write_packet_total : forall fuel d w total, ~ In WBlock (w_script w) ->
  (length (w_script w) + 1 < fuel \/ (w_script w = [] /\ (w_cap w = 0 \/ d = []) /\ 0 < fuel))%nat ->
  write_packet fuel d w total <> None.
Proof.
  induction fuel as [|fuel IH]; intros d w total NB F; [lia|]. cbn [write_packet].
  destruct (w_write w (length d)) as [[copied|e] w'] eqn:Ew.
  - destruct (Nat.eqb_spec copied 0) as [Z|Z]; [discriminate|].
    assert (P : write_packet fuel (skipn copied d) w' (total + copied) <> None).
    { destruct (write_script _ _ _ _ Ew) as [(ev & s & Hs & ->)|(Hs & Hx & ->)].
      - rewrite Hs in *. apply IH; cbn [w_script].
        + intros C. apply NB. now right.
        + left. cbn [length] in F. destruct F as [F|(? & _)]; [lia|discriminate].
      - rewrite Hs in *. inversion Hx as [Hc]. apply IH; cbn [w_script w_cap]; [auto|]. right. split; [reflexivity|].
        destruct F as [F|(_ & [C0| ->] & F)]; [|lia|cbn in *; lia]. cbn [length] in F. split; [|lia].
        destruct (Nat.le_gt_cases (length d) (w_cap w)); [right; apply skipn_all2; lia|left; lia]. }
    destruct (write_packet fuel (skipn copied d) w' (total + copied)) as [[? ?]|]; [ob; discriminate|congruence].
  - destruct (write_script _ _ _ _ Ew) as [(ev & s & Hs & ->)|(Hs & Hx & ->)]; [|discriminate].
    destruct e; try discriminate.
    + rewrite Hs in *. apply IH; cbn [w_script]; [intros C; apply NB; now right|].
      left. cbn [length] in F. destruct F as [F|(? & _)]; [lia|discriminate].
    + exfalso. unfold w_write in Ew. rewrite Hs in Ew. destruct ev; inversion Ew. apply NB. rewrite Hs. now left.
Qed.
Lemma write_packet_slice : forall fuel d n total res out, write_packet fuel d (slice n) total = Some (res, out) ->
  res = inl (total + length out)%nat /\ out = firstn n d.
Proof.
  induction fuel as [|fuel IH]; intros d n total res out E; [discriminate|]. cbn [write_packet] in E.
  unfold w_write in E. cbn [slice w_script w_cap] in E.
  destruct (Nat.eqb_spec (Nat.min n (length d)) 0) as [Z|Z].
  - inversion E; subst. cbn. rewrite Nat.add_0_r. split; [reflexivity|].
    destruct n; [reflexivity|]. destruct d; [reflexivity|]. cbn in Z. lia.
  - set (c := Nat.min n (length d)) in *. change (mkW [] (n - c)) with (slice (n - c)) in E.
    destruct (write_packet fuel (skipn c d) (slice (n - c)) (total + c)) as [[res2 out2]|] eqn:Ep; cbn [obind] in E; [|discriminate].
    inversion E; subst. destruct (IH _ _ _ _ _ Ep) as (-> & Eo). rewrite Eo, app_length, !firstn_length, skipn_length.
    split; [f_equal; lia|]. destruct (Nat.le_gt_cases n (length d)) as [L|L].
    + replace c with n by (unfold c; lia). rewrite Nat.sub_diag. cbn. apply app_nil_r.
    + replace c with (length d) by (unfold c; lia). rewrite firstn_all, skipn_all. rewrite firstn_nil, app_nil_r.
      symmetry. apply firstn_all2. lia.
Qed.

(** * peek *)
Lemma peek_inner_total : forall fuel d w total,
  (length (w_script w) + 1 < fuel \/ (w_script w = [] /\ (w_cap w = 0 \/ d = []) /\ 0 < fuel))%nat ->
  peek_inner fuel d w total <> None.
Proof.
  induction fuel as [|fuel IH]; intros d w total F; [lia|]. cbn [peek_inner].
  destruct (w_write w (length d)) as [[copied|e] w'] eqn:Ew.
  - destruct (Nat.eqb_spec copied 0) as [Z|Z]; [discriminate|].
    assert (P : peek_inner fuel (skipn copied d) w' (total + copied) <> None).
    { destruct (write_script _ _ _ _ Ew) as [(ev & s & Hs & ->)|(Hs & Hx & ->)].
      - rewrite Hs in *. apply IH; cbn [w_script].
        left. cbn [length] in F. destruct F as [F|(? & _)]; [lia|discriminate].
      - rewrite Hs in *. inversion Hx as [Hc]. apply IH; cbn [w_script w_cap]. right. split; [reflexivity|].
        destruct F as [F|(_ & [C0| ->] & F)]; [|lia|cbn in *; lia]. cbn [length] in F. split; [|lia].
        destruct (Nat.le_gt_cases (length d) (w_cap w)); [right; apply skipn_all2; lia|left; lia]. }
    destruct (peek_inner fuel (skipn copied d) w' (total + copied)) as [[[? ?] ?]|]; [ob; discriminate|congruence].
  - destruct (write_script _ _ _ _ Ew) as [(ev & s & Hs & ->)|(Hs & Hx & ->)]; [|discriminate].
    destruct e; try discriminate.
    + rewrite Hs in *. apply IH; cbn [w_script].
      left. cbn [length] in F. destruct F as [F|(? & _)]; [lia|discriminate].
    + destruct (Nat.eqb total 0); discriminate.
Qed.
Lemma peek_stream_total l : forall w total, peek_stream l w total <> None.
Proof.
  induction l as [|c l IH]; intros w total; cbn [peek_stream]; [discriminate|].
  destruct (negb (is_stream (c_type c))); [discriminate|].
  assert (P : peek_inner (S (S (length (w_script w)))) (c_data c) w total <> None) by (apply peek_inner_total; lia).
  destruct (peek_inner (S (S (length (w_script w)))) (c_data c) w total) as [[[[t|e] w'] out]|]; [| |congruence]; ob; [|discriminate].
  specialize (IH w' t). destruct (peek_stream l w' t) as [[? ?]|]; [ob; discriminate|congruence].
Qed.
Lemma peek_inner_slice : forall fuel d n total res w' out, peek_inner fuel d (slice n) total = Some (res, w', out) ->
  res = inl (total + length out)%nat /\ out = firstn n d /\ w' = slice (n - length out).
Proof.
  induction fuel as [|fuel IH]; intros d n total res w' out E; [discriminate|]. cbn [peek_inner] in E.
  unfold w_write in E. cbn [slice w_script w_cap] in E.
  destruct (Nat.eqb_spec (Nat.min n (length d)) 0) as [Z|Z].
  - inversion E; subst. cbn [length]. rewrite Nat.add_0_r, Z. split; [reflexivity|]. split; [|reflexivity].
    destruct n; [reflexivity|]. destruct d; [reflexivity|]. cbn in Z. lia.
  - set (c := Nat.min n (length d)) in *. change (mkW [] (n - c)) with (slice (n - c)) in E.
    destruct (peek_inner fuel (skipn c d) (slice (n - c)) (total + c)) as [[[res2 w2] out2]|] eqn:Ep; cbn [obind] in E; [|discriminate].
    inversion E; subst. destruct (IH _ _ _ _ _ _ Ep) as (-> & Eo & ->). rewrite Eo, app_length, !firstn_length, skipn_length.
    split; [f_equal; lia|]. split; [|f_equal; lia]. destruct (Nat.le_gt_cases n (length d)) as [L|L].
    + replace c with n by (unfold c; lia). rewrite Nat.sub_diag. cbn. apply app_nil_r.
    + replace c with (length d) by (unfold c; lia). rewrite firstn_all, skipn_all. rewrite firstn_nil, app_nil_r.
      symmetry. apply firstn_all2. lia.
Qed.
Lemma peek_stream_slice l : forall n total res out, peek_stream l (slice n) total = Some (res, out) ->
  res = inl (total + length out)%nat /\ out = firstn n (leading (items l)).
Proof.
  induction l as [|c l IH]; intros n total res out E; cbn [peek_stream] in E.
  - inversion E; subst. cbn. rewrite Nat.add_0_r. destruct n; auto.
  - destruct c as [data mu ty]. cbn [c_type c_data c_mut] in *. destruct ty; cbn [is_stream negb] in E.
    2: { inversion E; subst. cbn. rewrite Nat.add_0_r. destruct n; auto. }
    change (S (S (length (w_script (slice n))))) with 2%nat in E.
    destruct (peek_inner 2 data (slice n) total) as [[[res1 w1] out1]|] eqn:Ei; cbn [obind] in E; [|discriminate].
    destruct (peek_inner_slice _ _ _ _ _ _ _ Ei) as (-> & E1 & ->). 
    destruct (peek_stream l (slice (n - length out1)) (total + length out1)) as [[res2 out2]|] eqn:Ep; cbn [obind] in E; [|discriminate].
    destruct (IH _ _ _ _ Ep) as (R2 & E2). inversion E as [[Hr Ho]]. split.
    { rewrite <- Hr, R2, app_length. f_equal. lia. }
    change (items (mkChunk data mu Stream :: l)) with (map IByte data ++ items l).
    rewrite leading_app, firstn_app, E2, E1. f_equal. f_equal. rewrite firstn_length. lia.
Qed.

(** * Histories *)
Lemma pop_ok q w q' r out : wf q -> pop q w = Some (q', r, out) ->
  wf q' /\ bq_cap q' = bq_cap q /\ (Forall full (bq_bytes q) -> Forall full (bq_bytes q')) /\
  exists rem, removes (Pop w) (OPop r out) rem /\ content q = rem ++ content q'.
Proof.
  intros W E. unfold pop in E. destruct (bq_bytes q) as [|c rest] eqn:Eb.
  - inversion E; subst. split; [exact W|]. split; [reflexivity|]. split; [rewrite Eb; auto|]. exists []. cbn. auto.
  - destruct c as [data mu ty]. cbn [c_type c_data] in E. destruct ty.
    + destruct (pop_stream (pop_fuel q w) q w 0) as [[[q2 res2] out2]|] eqn:Ep; cbn [obind] in E; [|discriminate].
      inversion E; subst. destruct (pop_stream_ok _ _ _ _ _ _ _ W Ep) as (W2 & E2 & C2 & R2 & F2).
      split; [exact W2|]. split; [exact C2|]. split; [rewrite <- Eb; exact F2|]. exists (map IByte out).
      split; [|exact E2]. destruct res2 as [n|e]; cbn.
      * split; [reflexivity|]. specialize (R2 n eq_refl). cbn in R2. auto.
      * now left.
    + unfold assert_then in E. destruct (Nat.leb (length data) (bq_length q)); [|discriminate].
      destruct (write_packet (packet_fuel w data) data w 0) as [[res2 out2]|] eqn:Ep; cbn [obind] in E; [|discriminate].
      inversion E; subst. destruct (write_packet_ok _ _ _ _ _ _ Ep) as ((rst & Er) & Hn).
      assert (Ec : content q = [IPkt data] ++ items rest) by (rewrite content_items, Eb; reflexivity).
      split.
      { split; [|cbn; apply W]. pose proof (wf_len _ W) as L. rewrite Ec, total_app in L. cbn in L.
        rewrite content_items. cbn [bq_length bq_bytes]. lia. }
      split; [reflexivity|]. split; [intros F; inversion F; subst; assumption|].
      exists [IPkt data]. split; [|exact Ec]. destruct res2 as [n|e]; cbn.
      * exists data. split; [reflexivity|]. split; [exists rst; exact Er|]. specialize (Hn n eq_refl). auto.
      * right. exists data. split; [reflexivity|]. exists rst. exact Er.
Qed.
Lemma pop_total q w : wf q -> ~ In WBlock (w_script w) -> pop q w <> None.
Proof.
  intros W NB. unfold pop. destruct (bq_bytes q) as [|c rest] eqn:Eb; [discriminate|].
  destruct c as [data mu ty]. cbn [c_type c_data]. destruct ty.
  - assert (P : pop_stream (pop_fuel q w) q w 0 <> None) by (apply pop_stream_total; [exact W|unfold pop_fuel; lia]).
    destruct (pop_stream (pop_fuel q w) q w 0) as [[[? ?] ?]|]; [ob; discriminate|congruence].
  - assert (Ec : content q = [IPkt data] ++ items rest) by (rewrite content_items, Eb; reflexivity).
    pose proof (wf_len _ W) as L. rewrite Ec, total_app in L. cbn in L.
    rewrite assert_true by (apply Nat.leb_le; lia).
    assert (P : write_packet (packet_fuel w data) data w 0 <> None)
      by (apply write_packet_total; [exact NB|unfold packet_fuel; lia]).
    destruct (write_packet (packet_fuel w data) data w 0) as [[? ?]|]; [ob; discriminate|congruence].
Qed.
Lemma pop_chunk_ok q h : wf q -> exists q' r, pop_chunk q h = Some (q', r) /\ wf q' /\ bq_cap q' = bq_cap q /\
  (Forall full (bq_bytes q) -> Forall full (bq_bytes q')) /\
  exists rem, removes (PopChunk h) (OPopChunk r) rem /\ content q = rem ++ content q'.
Proof.
  intros W. unfold pop_chunk. destruct (bq_bytes q) as [|c rest] eqn:Eb.
  - exists q, None. split; [reflexivity|]. split; [exact W|]. split; [reflexivity|].
    split; [rewrite Eb; auto|]. exists []. cbn. auto.
  - destruct c as [data mu ty]. cbn [c_type c_data c_mut]. destruct ty.
    + set (n := Nat.min (length data) h).
      set (rest' := match skipn n data with [] => rest | d => mkChunk d mu Stream :: rest end).
      assert (Ir : items rest' = map IByte (skipn n data) ++ items rest).
      { unfold rest'. destruct (skipn n data) as [|b s] eqn:Sk; reflexivity. }
      assert (Ec : content q = map IByte (firstn n data) ++ items rest').
      { rewrite !content_items, Eb. change (items (mkChunk data mu Stream :: rest)) with (map IByte data ++ items rest).
        rewrite Ir, app_assoc, <- map_app, firstn_skipn. reflexivity. }
      pose proof (wf_len _ W) as L. rewrite Ec, total_app, total_stream in L.
      rewrite assert_true by (apply Nat.leb_le; lia). eexists; eexists. split; [reflexivity|]. split.
      { split; [|cbn; apply W]. rewrite content_items. cbn [bq_length bq_bytes]. lia. }
      split; [reflexivity|]. split.
      { intros F. inversion F; subst. cbn [bq_bytes]. unfold rest'. destruct (skipn n data); [assumption|].
        constructor; [|assumption]. intros _. cbn. discriminate. }
      exists (map IByte (firstn n data)). split; [cbn; split; [reflexivity|rewrite firstn_length; lia]|exact Ec].
    + assert (Ec : content q = [IPkt data] ++ items rest) by (rewrite content_items, Eb; reflexivity).
      pose proof (wf_len _ W) as L. rewrite Ec, total_app in L. cbn in L.
      rewrite assert_true by (apply Nat.leb_le; lia). eexists; eexists. split; [reflexivity|]. split.
      { split; [|cbn; apply W]. rewrite content_items. cbn [bq_length bq_bytes]. lia. }
      split; [reflexivity|]. split; [intros F; inversion F; subst; assumption|]. exists [IPkt data]. split; [reflexivity|exact Ec].
Qed.
Lemma peek_total q w : ~ In WBlock (w_script w) -> peek q w <> None.
Proof.
  intros NB. unfold peek. destruct (bq_bytes q) as [|c rest] eqn:Eb; [discriminate|].
  destruct c as [data mu ty]. cbn [c_type c_data]. destruct ty.
  - pose proof (peek_stream_total (mkChunk data mu Stream :: rest) w 0) as P.
    destruct (peek_stream (mkChunk data mu Stream :: rest) w 0) as [[? ?]|]; [ob; discriminate|congruence].
  - assert (P : write_packet (packet_fuel w data) data w 0 <> None)
      by (apply write_packet_total; [exact NB|unfold packet_fuel; lia]).
    destruct (write_packet (packet_fuel w data) data w 0) as [[? ?]|]; [ob; discriminate|congruence].
Qed.

Lemma step_ok q o q' x : wf q -> (0 < bq_cap q)%nat -> bq_step q o = Some (q', x) ->
  wf q' /\ bq_cap q' = bq_cap q /\ (proper o -> Forall full (bq_bytes q) -> Forall full (bq_bytes q')) /\
  exists rem, removes o x rem /\ content q ++ adds o x = rem ++ content q'.
Proof.
  intros W C E. destruct o as [r orc|r n|d m t|w|h|w]; cbn [bq_step] in E.
  - destruct (push_stream_ok q r orc W C) as (q1 & res & Ep & W1 & C1 & Cp & _ & _ & F1). rewrite Ep in E. cbn [obind] in E.
    inversion E; subst. split; [exact W1|]. split; [exact Cp|]. split; [auto|]. exists []. cbn. auto.
  - destruct (push_packet_ok q r n W) as (q1 & res & Ep & W1 & Cp & F1 & A1 & A2). rewrite Ep in E. cbn [obind] in E.
    inversion E; subst. split; [exact W1|]. split; [exact Cp|]. split; [auto|]. exists []. split; [reflexivity|].
    destruct (Nat.le_gt_cases n (length (offered true r))) as [L|L].
    + destruct (A1 L) as (-> & ->). reflexivity.
    + destruct (A2 L) as ((e & ->) & ->). cbn. apply app_nil_r.
  - cbn in E. inversion E; subst. destruct (push_chunk_ok q d m t W) as (W1 & E1 & E2 & E3).
    split; [exact W1|]. split; [exact E3|]. split.
    { intros P F. change (mkBq _ _ _ _) with (fst (push_chunk q d m t)). rewrite E2. apply Forall_app. split; [exact F|].
      constructor; [|constructor]. intros Ht. cbn in *. subst t. destruct d; [contradiction|discriminate]. }
    exists []. split; [reflexivity|]. change (mkBq _ _ _ _) with (fst (push_chunk q d m t)). cbn [app]. rewrite E1.
    destruct t; reflexivity.
  - destruct (pop q w) as [[[q1 r] out]|] eqn:Ep; cbn [obind] in E; [|discriminate]. inversion E; subst.
    destruct (pop_ok _ _ _ _ _ W Ep) as (W1 & Cp & F1 & rem & R & Ec). split; [exact W1|]. split; [exact Cp|].
    split; [auto|]. exists rem. split; [exact R|]. cbn. now rewrite app_nil_r.
  - destruct (pop_chunk_ok q h W) as (q1 & r & Ep & W1 & Cp & F1 & rem & R & Ec). rewrite Ep in E. cbn [obind] in E.
    inversion E; subst. split; [exact W1|]. split; [exact Cp|].
    split; [auto|]. exists rem. split; [exact R|]. cbn. now rewrite app_nil_r.
  - destruct (peek q w) as [[r out]|] eqn:Ep; cbn [obind] in E; [|discriminate]. inversion E; subst.
    split; [exact W|]. split; [reflexivity|]. split; [auto|]. exists []. split; [reflexivity|]. cbn. apply app_nil_r.
Qed.
Lemma step_total q o : wf q -> (0 < bq_cap q)%nat -> nonblocking o -> bq_step q o <> None.
Proof.
  intros W C NB. destruct o as [r orc|r n|d m t|w|h|w]; cbn [bq_step].
  - destruct (push_stream_ok q r orc W C) as (q1 & res & Ep & _). rewrite Ep. ob. discriminate.
  - destruct (push_packet_ok q r n W) as (q1 & res & Ep & _). rewrite Ep. ob. discriminate.
  - discriminate.
  - pose proof (pop_total _ _ W NB). destruct (pop q w) as [[[? ?] ?]|]; [ob; discriminate|congruence].
  - destruct (pop_chunk_ok q h W) as (q1 & r & Ep & _). rewrite Ep. ob. discriminate.
  - pose proof (peek_total q _ NB). destruct (peek q w) as [[? ?]|]; [ob; discriminate|congruence].
Qed.

Lemma run_ok ops : forall q q' outs, wf q -> (0 < bq_cap q)%nat -> bq_run q ops = Some (q', outs) ->
  wf q' /\ bq_cap q' = bq_cap q /\
  (Forall proper ops -> Forall full (bq_bytes q) -> Forall full (bq_bytes q')) /\
  exists rems, length outs = length ops /\
    Forall2 (fun ox rem => removes (fst ox) (snd ox) rem) (combine ops outs) rems /\
    content q ++ added ops outs = concat rems ++ content q'.
Proof.
  induction ops as [|o ops IH]; intros q q' outs W C E; cbn [bq_run] in E.
  - inversion E; subst. split; [exact W|]. split; [reflexivity|]. split; [auto|].
    exists []. split; [reflexivity|]. split; [constructor|]. cbn. apply app_nil_r.
  - destruct (bq_step q o) as [[q1 x]|] eqn:Es; cbn [obind] in E; [|discriminate].
    destruct (bq_run q1 ops) as [[q2 xs]|] eqn:Er; cbn [obind] in E; [|discriminate]. inversion E; subst.
    destruct (step_ok _ _ _ _ W C Es) as (W1 & C1 & F1 & rem & R & Ec).
    destruct (IH _ _ _ W1 ltac:(lia) Er) as (W2 & C2 & F2 & rems & L2 & R2 & E2).
    split; [exact W2|]. split; [lia|]. split.
    { intros P F. inversion P; subst. auto. }
    exists (rem :: rems). split; [cbn; lia|]. split; [constructor; [exact R|exact R2]|].
    cbn [added concat]. rewrite app_assoc, Ec, <- !app_assoc, E2. reflexivity.
Qed.

Lemma fifo_main cap ops q outs : (0 < cap)%nat -> bq_run (bq_new cap) ops = Some (q, outs) ->
  exists rems, length outs = length ops /\
    Forall2 (fun ox rem => removes (fst ox) (snd ox) rem) (combine ops outs) rems /\
    added ops outs = concat rems ++ content q.
Proof. intros C E. destruct (run_ok _ _ _ _ (wf_new cap) C E) as (_ & _ & _ & H). exact H. Qed.
Lemma length_main cap ops q outs : (0 < cap)%nat -> bq_run (bq_new cap) ops = Some (q, outs) ->
  num_bytes q = total_bytes (content q) /\ drop_ok q = true.
Proof.
  intros C E. destruct (run_ok _ _ _ _ (wf_new cap) C E) as (W & _). split; [apply W|].
  unfold drop_ok. apply Nat.eqb_eq. unfold num_bytes. rewrite (wf_len _ W), content_items.
  induction (bq_bytes q) as [|c l IH]; [reflexivity|]. change (items (c :: l)) with (citems c ++ items l).
  rewrite total_app, IH. cbn [fold_right]. f_equal. unfold citems. destruct (c_type c); [apply total_stream|cbn; lia].
Qed.
Lemma no_panic_main cap ops : (0 < cap)%nat -> Forall nonblocking ops -> bq_run (@bq_new B cap) ops <> None.
Proof.
  intros C. assert (G : forall ops q, wf q -> (0 < bq_cap q)%nat -> Forall nonblocking ops -> bq_run q ops <> None).
  { clear. induction ops as [|o ops IH]; intros q W C NB; cbn [bq_run]; [discriminate|]. inversion NB; subst.
    pose proof (step_total _ _ W C H1) as T. destruct (bq_step q o) as [[q1 x]|] eqn:Es; [ob|congruence].
    destruct (step_ok _ _ _ _ W C Es) as (W1 & C1 & _). specialize (IH q1 W1 ltac:(lia) H2).
    destruct (bq_run q1 ops) as [[? ?]|]; [ob; discriminate|congruence]. }
  apply G; [apply wf_new|exact C].
Qed.

Lemma leading_prefix d (x : list (item B)) n : length d = Nat.min n (length (leading (map IByte d ++ x))) ->
  d = firstn n (leading (map IByte d ++ x)).
Proof.
  rewrite leading_app. intros L. rewrite app_length in L. rewrite firstn_app.
  rewrite firstn_all2 by lia. destruct (Nat.le_gt_cases n (length d)).
  - replace (n - length d)%nat with O by lia. cbn. now rewrite app_nil_r.
  - assert (leading x = []) by (destruct (leading x); [reflexivity|cbn in L; lia]). rewrite H0, firstn_nil, app_nil_r. reflexivity.
Qed.
Lemma content_full_nil q : Forall full (bq_bytes q) -> content q = [] -> bq_bytes q = [].
Proof.
  rewrite content_items. intros F. destruct (bq_bytes q) as [|c l]; [reflexivity|]. inversion F as [|? ? F1 _]; subst.
  cbn. unfold citems, full in *. destruct (c_type c); [|discriminate].
  specialize (F1 eq_refl). destruct (c_data c); [congruence|discriminate].
Qed.

Lemma pop_slice q n : wf q -> Forall full (bq_bytes q) ->
  exists q' r written, pop q (slice n) = Some (q', r, written) /\ read_result (content q) n r written (content q').
Proof.
  intros W F. pose proof (pop_total q (slice n) W (fun x => x)) as T.
  destruct (pop q (slice n)) as [[[q' r] out]|] eqn:Ep; [|congruence]. exists q', r, out. split; [reflexivity|].
  unfold pop in Ep. destruct (bq_bytes q) as [|c rest] eqn:Eb.
  - inversion Ep; subst. rewrite !content_items, Eb. cbn. auto.
  - destruct c as [data mu ty]. cbn [c_type c_data] in Ep. destruct ty.
    + destruct (pop_stream (pop_fuel q (slice n)) q (slice n) 0) as [[[q2 res2] out2]|] eqn:Es; cbn [obind] in Ep; [|discriminate].
      inversion Ep; subst. destruct (pop_stream_ok _ _ _ _ _ _ _ W Es) as (W2 & E2 & C2 & R2 & F2).
      rewrite <- Eb in F. destruct (pop_stream_slice _ _ _ _ _ _ _ W F Es) as (-> & Ln).
      assert (Ef : exists b x, content q = IByte b :: x).
      { rewrite content_items, Eb. rewrite Eb in F. inversion F as [|? ? F1 _]; subst. specialize (F1 eq_refl). cbn in F1.
        destruct data as [|b data]; [congruence|]. cbn. eauto. }
      destruct Ef as (b & x & Ef). unfold read_result. rewrite Ef. rewrite <- Ef. cbn [Nat.add].
      split; [|split; [reflexivity|]].
      * rewrite E2 at 1. apply leading_prefix. rewrite <- E2. exact Ln.
      * rewrite E2, skipn_app, map_length, Nat.sub_diag. cbn. rewrite skipn_all2; [reflexivity|]. now rewrite map_length.
    + unfold assert_then in Ep. destruct (Nat.leb (length data) (bq_length q)); [|discriminate].
      destruct (write_packet (packet_fuel (slice n) data) data (slice n) 0) as [[res2 out2]|] eqn:Es; cbn [obind] in Ep; [|discriminate].
      inversion Ep; subst. destruct (write_packet_slice _ _ _ _ _ _ Es) as (-> & ->).
      rewrite !content_items, Eb. cbn. auto.
Qed.
Lemma read_main cap ops q outs n : (0 < cap)%nat -> Forall proper ops -> bq_run (bq_new cap) ops = Some (q, outs) ->
  exists q' r written, bq_step q (Pop (slice n)) = Some (q', OPop r written) /\
    read_result (content q) n r written (content q').
Proof.
  intros C P E. destruct (run_ok _ _ _ _ (wf_new cap) C E) as (W & _ & F & _). specialize (F P (Forall_nil _)).
  cbn [bq_step]. destruct (pop_slice q n W F) as (q' & r & out & Ep & H). rewrite Ep. ob. eauto.
Qed.
Lemma peek_main cap ops q outs n : (0 < cap)%nat -> Forall proper ops -> bq_run (bq_new cap) ops = Some (q, outs) ->
  exists r written rest, bq_step q (Peek (slice n)) = Some (q, OPeek r written) /\
    read_result (content q) n r written rest.
Proof.
  intros C P E. destruct (run_ok _ _ _ _ (wf_new cap) C E) as (W & _ & F & _). specialize (F P (Forall_nil _)).
  cbn [bq_step]. pose proof (peek_total q (slice n) (fun x => x)) as T.
  destruct (peek q (slice n)) as [[r out]|] eqn:Ep; [|congruence]. ob. exists r, out.
  unfold peek in Ep. destruct (bq_bytes q) as [|c rest] eqn:Eb.
  - inversion Ep; subst. exists []. split; [reflexivity|]. rewrite !content_items, Eb. cbn. auto.
  - destruct c as [data mu ty]. cbn [c_type c_data] in Ep. destruct ty.
    + destruct (peek_stream (mkChunk data mu Stream :: rest) (slice n) 0) as [[res2 out2]|] eqn:Es; cbn [obind] in Ep; [|discriminate].
      inversion Ep; subst. destruct (peek_stream_slice _ _ _ _ _ Es) as (-> & Eo).
      assert (Ef : exists b x, content q = IByte b :: x).
      { rewrite content_items, Eb. inversion F as [|? ? F1 _]; subst. specialize (F1 eq_refl). cbn in F1.
        destruct data as [|b data]; [congruence|]. cbn. eauto. }
      destruct Ef as (b & x & Ef). exists (skipn (length out) (content q)). split; [reflexivity|].
      unfold read_result. rewrite Ef. rewrite <- Ef. cbn [Nat.add].
      split; [|split; [reflexivity|reflexivity]]. rewrite Eo at 1. rewrite content_items, Eb. reflexivity.
    + destruct (write_packet (packet_fuel (slice n) data) data (slice n) 0) as [[res2 out2]|] eqn:Es; cbn [obind] in Ep; [|discriminate].
      inversion Ep; subst. destruct (write_packet_slice _ _ _ _ _ _ Es) as (-> & ->).
      exists (items rest). split; [reflexivity|]. rewrite !content_items, Eb. cbn. auto.
Qed.
Lemma push_stream_main cap ops q outs src orc : (0 < cap)%nat -> bq_run (bq_new cap) ops = Some (q, outs) ->
  exists q' res, bq_step q (PushStream src orc) = Some (q', OStream res) /\
    (ends src -> res = inl (length (offered false src))) /\ (~ ends src -> exists e, res = inr e).
Proof.
  intros C E. destruct (run_ok _ _ _ _ (wf_new cap) C E) as (W & Cq & _). cbn in Cq.
  destruct (push_stream_ok q src orc W ltac:(lia)) as (q' & res & Ep & _ & _ & _ & A & A' & _).
  exists q', res. cbn [bq_step]. rewrite Ep. auto.
Qed.
Lemma push_packet_main cap ops q outs src n : (0 < cap)%nat -> bq_run (bq_new cap) ops = Some (q, outs) ->
  exists q' res, bq_step q (PushPacket src n) = Some (q', OPacket res) /\
    ((n <= length (offered true src))%nat -> res = inl tt) /\
    ((length (offered true src) < n)%nat -> (exists e, res = inr e) /\ q' = q).
Proof.
  intros C E. destruct (run_ok _ _ _ _ (wf_new cap) C E) as (W & Cq & _).
  destruct (push_packet_ok q src n W) as (q' & res & Ep & _ & _ & _ & A & A').
  exists q', res. cbn [bq_step]. rewrite Ep. split; [reflexivity|]. split; [intros L; apply A, L|exact A'].
Qed.
Lemma has_main cap ops q outs : (0 < cap)%nat -> Forall proper ops -> bq_run (bq_new cap) ops = Some (q, outs) ->
  (has_chunks q = false <-> content q = []) /\ (has_bytes q = false <-> total_bytes (content q) = O).
Proof.
  intros C P E. destruct (run_ok _ _ _ _ (wf_new cap) C E) as (W & _ & F & _). specialize (F P (Forall_nil _)). split.
  - unfold has_chunks. split.
    + destruct (bq_bytes q) eqn:Eb; [|discriminate]. intros _. now rewrite content_items, Eb.
    + intros H. now rewrite (content_full_nil _ F H).
  - unfold has_bytes, num_bytes. rewrite (wf_len _ W), Nat.ltb_ge. lia.
Qed.
End Proofs.

(** * Findings *)
Lemma progress_refuted_main : exists (ops : list (bop nat)) q outs n,
  bq_run (bq_new 4) ops = Some (q, outs) /\ num_bytes q = 2%nat /\ (0 < n)%nat /\
  bq_step q (Pop (slice n)) = Some (q, OPop (inl (Some (0, 0, Stream)))%nat []).
Proof.
  exists [PushChunk [] false Stream; PushStream [RData [7; 8]%nat] []]. eexists; eexists; exists 5%nat.
  split; [vm_compute; reflexivity|]. split; [reflexivity|]. split; [lia|]. vm_compute. reflexivity.
Qed.
Lemma peek_gap_refuted_main : exists (ops : list (bop nat)) q outs w written r,
  Forall proper ops /\ bq_run (bq_new 4) ops = Some (q, outs) /\ bq_step q (Peek w) = Some (q, OPeek r written) /\
  ~ exists rest, content q = map IByte written ++ rest.
Proof.
  exists [PushStream [RData [1; 2]%nat] []; PushChunk [3; 4]%nat false Stream]. eexists; eexists.
  exists (mkW [WTake 1; WBlock] 9). eexists; eexists.
  split; [repeat constructor|]. split; [vm_compute; reflexivity|]. split; [vm_compute; reflexivity|].
  intros (rest & H). vm_compute in H. discriminate.
Qed.
