(** Text buffers: proofs for [FmtProps]. *)
From Verif Require Import Base FmtModel FmtSpec.
From Coq Require Import ZifyBool.

Lemma dm q r : 0 <= r < 64 -> (q * 64 + r) / 64 = q /\ (q * 64 + r) mod 64 = r.
Proof.
  intros H. split.
  - rewrite Z.div_add_l by lia. rewrite Z.div_small by lia. lia.
  - rewrite Z.add_comm, Z_mod_plus_full. apply Z.mod_small. lia.
Qed.

Lemma div4096 c : c / 4096 = c / 64 / 64.
Proof. rewrite Z.div_div by lia. reflexivity. Qed.
Lemma div262144 c : c / 262144 = c / 64 / 64 / 64.
Proof. rewrite !Z.div_div by lia. reflexivity. Qed.

Ltac cases := repeat match goal with |- context [if ?b then _ else _] =>
  let Q := fresh "Q" in destruct b eqn:Q; try (exfalso; unfold between in *; lia) end.

Lemma one_encode c r : scalar c -> one (encode c ++ r) = Some (length (encode c)).
Proof.
  intros S. unfold encode. rewrite div4096, div262144.
  pose proof (Z.div_mod c 64 ltac:(lia)) as E0. pose proof (Z.mod_pos_bound c 64 ltac:(lia)) as B0.
  remember (c / 64) as q0. remember (c mod 64) as r0.
  pose proof (Z.div_mod q0 64 ltac:(lia)) as E1. pose proof (Z.mod_pos_bound q0 64 ltac:(lia)) as B1.
  remember (q0 / 64) as q1. remember (q0 mod 64) as r1.
  pose proof (Z.div_mod q1 64 ltac:(lia)) as E2. pose proof (Z.mod_pos_bound q1 64 ltac:(lia)) as B2.
  remember (q1 / 64) as q2. remember (q1 mod 64) as r2.
  clear Heqq0 Heqr0 Heqq1 Heqr1 Heqq2 Heqr2. unfold scalar in S.
  destruct (c <? 128) eqn:C1; [|destruct (c <? 2048) eqn:C2; [|destruct (c <? 65536) eqn:C3]];
    cbn [app one length]; cases; reflexivity.
Qed.

Lemma one_sound bs n : one bs = Some n ->
  exists c r, scalar c /\ bs = encode c ++ r /\ n = length (encode c).
Proof.
  unfold one. destruct bs as [|a r]; [discriminate|].
  destruct (between 0 a 127) eqn:H.
  { intros E. injection E as <-. exists a, r. unfold between in H. unfold scalar.
    split; [lia|]. unfold encode. destruct (a <? 128) eqn:Q; [|lia]. auto. }
  destruct r as [|b r]; [discriminate|].
  destruct (_ && _) eqn:H2 at 1.
  { intros E. injection E as <-. exists ((a - 192) * 64 + (b - 128)), r.
    unfold between in *. destruct (dm (a - 192) (b - 128)) as [D M]; [lia|].
    split; [unfold scalar; lia|]. unfold encode. rewrite D, M. cases.
    split; [|reflexivity]. cbn [app]. repeat f_equal; lia. }
  destruct r as [|c r]; [discriminate|].
  destruct (_ && _) eqn:H3 at 1.
  { intros E. injection E as <-. exists (((a - 224) * 64 + (b - 128)) * 64 + (c - 128)), r.
    unfold between in *. clear H2.
    destruct (dm ((a - 224) * 64 + (b - 128)) (c - 128)) as [D M]; [lia|].
    destruct (dm (a - 224) (b - 128)) as [D' M']; [lia|].
    split; [unfold scalar; lia|]. unfold encode. rewrite div4096, D, M, D', M'. clear D M D' M'. cases.
    split; [|reflexivity]. cbn [app]. repeat f_equal; lia. }
  destruct r as [|d r]; [discriminate|].
  destruct (_ && _) eqn:H4 at 1; [|discriminate].
  intros E. injection E as <-.
  exists ((((a - 240) * 64 + (b - 128)) * 64 + (c - 128)) * 64 + (d - 128)), r.
  unfold between in *. clear H2 H3.
  destruct (dm (((a - 240) * 64 + (b - 128)) * 64 + (c - 128)) (d - 128)) as [D M]; [lia|].
  destruct (dm ((a - 240) * 64 + (b - 128)) (c - 128)) as [D' M']; [lia|].
  destruct (dm (a - 240) (b - 128)) as [D2 M2]; [lia|].
  split; [unfold scalar; lia|]. unfold encode.
  rewrite div4096, div262144, D, M, D', M', D2, M2. clear D M D' M' D2 M2. cases.
  split; [|reflexivity]. cbn [app]. repeat f_equal; lia.
Qed.

Lemma one_starts bs : starts bs <-> one bs <> None.
Proof.
  split.
  - intros (c & r & S & ->). rewrite one_encode by exact S. discriminate.
  - destruct (one bs) eqn:E; [|congruence]. intros _.
    destruct (one_sound _ _ E) as (c & r & S & -> & _). exists c, r. auto.
Qed.

Lemma encode_len c : (1 <= length (encode c) <= 4)%nat.
Proof. unfold encode. cases; cbn [length]; lia. Qed.

(** ** Validity *)
Lemma skipn_len_app {A} (a b : list A) : skipn (length a) (a ++ b) = b.
Proof. rewrite skipn_app, skipn_all, Nat.sub_diag. reflexivity. Qed.

Lemma firstn_len_app {A} (a b : list A) : firstn (length a) (a ++ b) = a.
Proof. rewrite firstn_app, firstn_all, Nat.sub_diag, firstn_O, app_nil_r. reflexivity. Qed.

Lemma valid_one fuel bs : bs <> [] -> valid fuel bs = true -> one bs <> None.
Proof.
  destruct bs as [|a r]; [congruence|]. intros _. destruct fuel; [discriminate|]. cbn [valid].
  destruct (one (a :: r)); congruence.
Qed.

(** the first character as the loop over the lengths finds it *)
Lemma try_none bs ns : (forall n, In n ns -> (1 <= n)%nat) -> bs <> [] -> one bs = None ->
  try_lengths ns bs = None.
Proof.
  intros P N E. induction ns as [|n ns IH]; [reflexivity|]. cbn [try_lengths].
  destruct (from_utf8 (firstn n bs)) eqn:V.
  - exfalso. assert (n1 : (1 <= n)%nat) by (apply P; left; reflexivity).
    assert (F : firstn n bs <> []).
    { destruct n; [lia|]. destruct bs; [congruence|]. discriminate. }
    pose proof (valid_one _ _ F V) as O.
    apply one_starts in O. destruct O as (c & r & S & Q).
    assert (one bs <> None); [|congruence].
    apply one_starts. exists c, (r ++ skipn n bs). split; [exact S|].
    rewrite app_assoc, <- Q, firstn_skipn. reflexivity.
  - apply IH. intros m I. apply P. right. exact I.
Qed.

Lemma try_some c r k : scalar c -> forall n, (1 <= n <= length (encode c))%nat ->
  (length (encode c) < n + k)%nat ->
  try_lengths (seq n k) (encode c ++ r) = Some (encode c, r).
Proof.
  intros S. induction k as [|k IH]; intros n B L; [lia|]. cbn [seq try_lengths].
  destruct (Nat.eq_dec n (length (encode c))) as [->|N].
  - rewrite firstn_len_app, skipn_len_app.
    assert (V : from_utf8 (encode c) = true).
    { unfold from_utf8. pose proof (one_encode c [] S) as O. rewrite app_nil_r in O.
      destruct (encode c) as [|a t] eqn:E; [reflexivity|]. cbn [length valid]. cbn [length] in O.
      rewrite O. change (Datatypes.S (length t)) with (length (a :: t)). rewrite skipn_all.
      destruct (length t); reflexivity. }
    rewrite V. reflexivity.
  - destruct (from_utf8 (firstn n (encode c ++ r))) eqn:V; [|apply IH; lia].
    exfalso.
    assert (F : firstn n (encode c ++ r) <> []).
    { destruct n; [lia|]. pose proof (encode_len c). destruct (encode c); simpl in *; [lia|discriminate]. }
    pose proof (valid_one _ _ F V) as O.
    destruct (one (firstn n (encode c ++ r))) as [m|] eqn:Q; [|congruence].
    destruct (one_sound _ _ Q) as (c' & r' & S' & E & _).
    assert (E2 : encode c ++ r = encode c' ++ (r' ++ skipn n (encode c ++ r))).
    { rewrite app_assoc, <- E, firstn_skipn. reflexivity. }
    pose proof (one_encode c r S) as O1. rewrite E2 in O1. rewrite one_encode in O1 by exact S'.
    injection O1 as O1.
    assert (length (firstn n (encode c ++ r)) <= n)%nat by apply firstn_le_length.
    rewrite E, app_length in *. lia.
Qed.

Lemma split_char c r : scalar c -> split_first (encode c ++ r) = Some (encode c, r).
Proof.
  intros S. unfold split_first. pose proof (encode_len c). apply try_some; [exact S|lia|].
  rewrite app_length. lia.
Qed.

Lemma split_none bs : bs <> [] -> ~ starts bs -> split_first bs = None.
Proof.
  intros N H. apply try_none; [|exact N|].
  - intros n I. apply in_seq in I. lia.
  - destruct (one bs) eqn:E; [|reflexivity]. exfalso. apply H, one_starts. congruence.
Qed.

Lemma starts_dec bs : starts bs \/ ~ starts bs.
Proof. rewrite one_starts. destruct (one bs); [left|right]; congruence. Qed.

(** ** Lossy decoding *)
Lemma split_lossy_true bs : exists j r, bs = j ++ r /\ split_lossy true bs = (replacement, r)
  /\ (forall k, (k < length j)%nat -> ~ starts (skipn k (j ++ r))) /\ (r = [] \/ starts r).
Proof.
  induction bs as [|a bs IH].
  - exists [], []. repeat split; auto. simpl. lia.
  - destruct (starts_dec (a :: bs)) as [H|H].
    + exists [], (a :: bs). split; [reflexivity|]. split; [|split; [simpl; lia|right; exact H]].
      destruct H as (c & r & S & E). cbn [split_lossy]. rewrite E, split_char by exact S. reflexivity.
    + destruct IH as (j & r & -> & E & P & Q). exists (a :: j), r.
      split; [reflexivity|]. split; [|split; [|exact Q]].
      * cbn [split_lossy]. rewrite split_none; [exact E|discriminate|exact H].
      * intros [|k] L; [exact H|]. cbn [app skipn]. apply P. simpl in L. lia.
Qed.

Lemma replacement_encode : replacement = encode 65533.
Proof. reflexivity. Qed.

Lemma decode_law fuel : forall bs, (length bs <= fuel)%nat ->
  exists cs, decode fuel bs = Some (map encode cs) /\ lossy bs cs.
Proof.
  induction fuel as [|fuel IH]; intros bs L.
  - destruct bs; [|simpl in L; lia]. exists []. split; [reflexivity|constructor].
  - destruct bs as [|a bs]; [exists []; split; [reflexivity|constructor]|].
    destruct (starts_dec (a :: bs)) as [H|H].
    + destruct H as (c & r & S & E). cbn [decode split_lossy].
      rewrite E, split_char by exact S.
      destruct (IH r) as (cs & D & Y).
      { pose proof (encode_len c). apply (f_equal (@length Z)) in E. rewrite app_length in E. lia. }
      rewrite D. ob. exists (c :: cs). split; [reflexivity|]. constructor; assumption.
    + destruct (split_lossy_true bs) as (j & r & E & Q & P & R).
      cbn [decode split_lossy]. rewrite split_none by (try discriminate; exact H). rewrite Q.
      destruct (IH r) as (cs & D & Y).
      { subst bs. simpl in L. rewrite app_length in L. lia. }
      rewrite D. ob. exists (65533 :: cs). split; [reflexivity|]. subst bs.
      apply (L_junk (a :: j) r cs); auto; [discriminate|].
      intros [|k] Lk; [exact H|]. cbn [app skipn]. apply P. simpl in Lk. lia.
Qed.

Lemma encode_inj c r c' r' : scalar c -> scalar c' -> encode c ++ r = encode c' ++ r' ->
  encode c = encode c' /\ r = r'.
Proof.
  intros S S' E. pose proof (one_encode c r S) as O. rewrite E, one_encode in O by exact S'.
  injection O as O. split.
  - rewrite <- (firstn_len_app (encode c) r), E, <- O. apply firstn_len_app.
  - rewrite <- (skipn_len_app (encode c) r), E, <- O. apply skipn_len_app.
Qed.

(** text is decoded as it is *)
Lemma lossy_text bs cs : lossy bs cs -> forall ts, Forall scalar ts -> bs = text ts ->
  map encode cs = map encode ts.
Proof.
  induction 1 as [|c r cs S Y IH|j r cs J P R Y IH]; intros ts F E.
  - destruct ts as [|t ts]; [reflexivity|]. exfalso. cbn [text flat_map] in E.
    pose proof (encode_len t). destruct (encode t); [simpl in *; lia|discriminate].
  - destruct ts as [|t ts].
    { exfalso. pose proof (encode_len c). destruct (encode c); [simpl in *; lia|discriminate]. }
    apply Forall_cons_iff in F. destruct F as [St F]. cbn [text flat_map] in E.
    apply encode_inj in E; [|assumption|assumption]. destruct E as [E1 E2].
    cbn [map]. rewrite E1. f_equal. apply IH; assumption.
  - exfalso. destruct j as [|a j]; [congruence|]. apply (P O); [simpl; lia|]. cbn [skipn].
    rewrite E. destruct ts as [|t ts]; [discriminate|].
    apply Forall_cons_iff in F. exists t, (text ts). split; [apply F|reflexivity].
Qed.

Lemma lossy_scalar bs cs : lossy bs cs -> Forall scalar cs.
Proof. induction 1; constructor; auto. unfold scalar. lia. Qed.

(** ** Character boundaries *)
Lemma text_app a b : text (a ++ b) = text a ++ text b.
Proof. apply flat_map_app. Qed.

Lemma len_app a b : len (a ++ b) = len a + len b.
Proof. unfold len. rewrite app_length. lia. Qed.

Lemma encode_bytes c : scalar c -> exists a t, encode c = a :: t
  /\ between 128 a 191 = false /\ Forall (fun x => between 128 x 191 = true) t.
Proof.
  intros S. unfold encode. rewrite div4096, div262144. unfold scalar in S.
  pose proof (Z.div_mod c 64 ltac:(lia)) as E0. pose proof (Z.mod_pos_bound c 64 ltac:(lia)) as B0.
  remember (c / 64) as q0. remember (c mod 64) as r0.
  pose proof (Z.div_mod q0 64 ltac:(lia)) as E1. pose proof (Z.mod_pos_bound q0 64 ltac:(lia)) as B1.
  remember (q0 / 64) as q1. remember (q0 mod 64) as r1.
  pose proof (Z.div_mod q1 64 ltac:(lia)) as E2. pose proof (Z.mod_pos_bound q1 64 ltac:(lia)) as B2.
  remember (q1 / 64) as q2. remember (q1 mod 64) as r2.
  clear Heqq0 Heqr0 Heqq1 Heqr1 Heqq2 Heqr2.
  cases; eexists _, _; (split; [reflexivity|]); unfold between;
    (split; [lia|]); repeat (apply Forall_cons; [lia|]); apply Forall_nil.
Qed.

Lemma boundary_split cs : Forall scalar cs -> forall n,
  n = length (text cs) \/ (exists x, nth_error (text cs) n = Some x /\ between 128 x 191 = false) ->
  exists cs1 cs2, cs = cs1 ++ cs2 /\ length (text cs1) = n.
Proof.
  induction 1 as [|c cs S F IH]; intros n H.
  - exists [], []. split; [reflexivity|]. destruct H as [->|(x & H & _)]; [reflexivity|].
    destruct n; discriminate.
  - destruct n as [|n]; [exists [], (c :: cs); auto|].
    change (text (c :: cs)) with (encode c ++ text cs) in H.
    destruct (Nat.lt_ge_cases (Datatypes.S n) (length (encode c))) as [L|L].
    + exfalso. destruct H as [H|(x & H & Q)]; [rewrite app_length in H; lia|].
      rewrite nth_error_app1 in H by exact L.
      destruct (encode_bytes c S) as (a & t & E & _ & T). rewrite E in H. cbn [nth_error] in H.
      apply nth_error_In in H. rewrite Forall_forall in T. apply T in H. congruence.
    + destruct (IH (Datatypes.S n - length (encode c))%nat) as (cs1 & cs2 & -> & E).
      { destruct H as [H|(x & H & Q)]; [left; rewrite app_length in H; lia|].
        right. exists x. rewrite nth_error_app2 in H by exact L. auto. }
      exists (c :: cs1), cs2. split; [reflexivity|].
      change (text (c :: cs1)) with (encode c ++ text cs1). rewrite app_length. lia.
Qed.

Lemma boundary_at cs1 cs2 : Forall scalar cs2 ->
  boundary (text (cs1 ++ cs2)) (length (text cs1)) = true.
Proof.
  intros F. unfold boundary. rewrite text_app. destruct F as [|c cs S F].
  - rewrite app_nil_r, Nat.eqb_refl, orb_true_r. reflexivity.
  - rewrite nth_error_app2, Nat.sub_diag by lia.
    change (text (c :: cs)) with (encode c ++ text cs).
    destruct (encode_bytes c S) as (a & t & -> & A & _). cbn [app nth_error]. rewrite A.
    apply orb_true_r.
Qed.

Lemma floor_law src n : exists m, floor_boundary src n = Some m /\ (m <= n)%nat
  /\ boundary src m = true /\ forall k, (m < k <= n)%nat -> boundary src k = false.
Proof.
  induction n as [|n IH].
  - exists O. repeat split; auto. intros; lia.
  - cbn [floor_boundary]. destruct (boundary src (S n)) eqn:B.
    + exists (S n). repeat split; auto. intros; lia.
    + destruct IH as (m & E & L & Bm & K). exists m. repeat split; auto.
      intros k Hk. destruct (Nat.eq_dec k (S n)) as [->|]; [exact B|]. apply K. lia.
Qed.

Lemma floor_text cs n : Forall scalar cs -> (n < length (text cs))%nat ->
  exists cs1 c cs2, cs = cs1 ++ c :: cs2 /\ floor_boundary (text cs) n = Some (length (text cs1))
    /\ (length (text cs1) <= n < length (text (cs1 ++ [c])))%nat.
Proof.
  intros F L. destruct (floor_law (text cs) n) as (m & E & Lm & B & K).
  assert (G : exists cs1 cs2, cs = cs1 ++ cs2 /\ length (text cs1) = m).
  { unfold boundary in B. apply orb_true_iff in B. destruct B as [B|B].
    - apply orb_true_iff in B. destruct B as [B|B]; apply Nat.eqb_eq in B.
      + exists [], cs. auto.
      + apply boundary_split; auto.
    - apply boundary_split; [exact F|]. right. destruct (nth_error (text cs) m) as [x|]; [|discriminate].
      exists x. split; [reflexivity|]. destruct (between 128 x 191); [discriminate|reflexivity]. }
  destruct G as (cs1 & cs2 & -> & <-).
  destruct cs2 as [|c cs2]; [rewrite app_nil_r in L; lia|].
  exists cs1, c, cs2. split; [reflexivity|]. split; [exact E|]. split; [exact Lm|].
  destruct (Nat.lt_ge_cases n (length (text (cs1 ++ [c])))) as [|G]; [assumption|]. exfalso.
  assert (B2 : boundary (text (cs1 ++ c :: cs2)) (length (text (cs1 ++ [c]))) = true).
  { replace (cs1 ++ c :: cs2) with ((cs1 ++ [c]) ++ cs2) by (rewrite <- app_assoc; reflexivity).
    apply boundary_at. apply Forall_app in F. destruct F as [_ F]. apply Forall_cons_iff in F. apply F. }
  rewrite K in B2; [discriminate|]. split; [|exact G].
  rewrite text_app, app_length. change (text [c]) with (encode c ++ []). rewrite app_nil_r.
  pose proof (encode_len c). lia.
Qed.

(** ** Buffers *)
Lemma len_nonneg l : 0 <= len l.
Proof. unfold len. lia. Qed.

Lemma text_pos c cs : 0 < len (text (c :: cs)).
Proof.
  change (text (c :: cs)) with (encode c ++ text cs). pose proof (encode_len c). unfold len.
  rewrite app_length. lia.
Qed.

Lemma holds_empty N : 1 <= N -> holds N [] (FBuf [] 0).
Proof.
  intros H. exists [], []. split; [reflexivity|]. split; [reflexivity|]. split; [reflexivity|].
  change (len (text [])) with 0. split; [lia|]. intros c cs E. discriminate E.
Qed.

(** a full buffer *)
Lemma holds_more N all b more : holds N all b -> 0 < b_trunc b ->
  holds N (all ++ more) (FBuf (b_text b) (b_trunc b + len (text more))).
Proof.
  intros (cs1 & cs2 & -> & T & C & L & M) H. exists cs1, (cs2 ++ more).
  rewrite <- app_assoc. split; [reflexivity|]. split; [exact T|]. cbn [b_trunc].
  split; [rewrite text_app, len_app; lia|]. split; [exact L|].
  intros c cs E. destruct cs2 as [|c' cs2]; [change (len (text [])) with 0 in C; lia|]. injection E as <- _.
  apply (M c' cs2). reflexivity.
Qed.

(** a buffer that is not full *)
Lemma holds_all N all b : holds N all b -> b_trunc b <= 0 -> b_text b = text all /\ b_trunc b = 0.
Proof.
  intros (cs1 & cs2 & -> & T & C & L & M) H.
  destruct cs2 as [|c cs]; [|pose proof (text_pos c cs); lia].
  rewrite app_nil_r. auto.
Qed.

Lemma holds_len N all b : holds N all b -> len (b_text b) < N /\ 0 <= b_trunc b.
Proof.
  intros (cs1 & cs2 & -> & T & C & L & M). rewrite T, C. pose proof (len_nonneg (text cs2)). lia.
Qed.

Lemma holds_fit N all more t : len (text (all ++ more)) < N -> t = 0 ->
  holds N (all ++ more) (FBuf (text all ++ text more) t).
Proof.
  intros H ->. exists (all ++ more), []. rewrite app_nil_r. split; [reflexivity|]. split; [symmetry; apply text_app|].
  split; [reflexivity|]. split; [exact H|]. intros c cs E. discriminate E.
Qed.

Lemma write_law N all b cs : holds N all b -> Forall scalar cs ->
  exists b', write_str N (text cs) b = Some b' /\ holds N (all ++ cs) b'.
Proof.
  intros H F. pose proof (holds_len _ _ _ H) as [L T0]. unfold write_str.
  destruct (0 <? b_trunc b) eqn:Q.
  { eexists. split; [reflexivity|]. apply holds_more; [exact H|lia]. }
  destruct (holds_all _ _ _ H ltac:(lia)) as [T Z0]. unfold remaining.
  destruct (len (text cs) <=? N - 1 - len (b_text b)) eqn:Q2.
  { unfold write_fitting, null_terminate, remaining. cbn [b_text].
    rewrite assert_true by exact Q2. rewrite assert_true by (rewrite len_app; lia).
    eexists. split; [reflexivity|]. rewrite T. apply holds_fit; [|exact Z0].
    rewrite text_app, len_app, <- T. lia. }
  rewrite assert_true by lia.
  destruct (floor_text cs (Z.to_nat (N - 1 - len (b_text b))) F) as (cs1 & c & cs2 & -> & E & B).
  { unfold len in *. lia. }
  rewrite E. ob. rewrite (text_app cs1), firstn_len_app.
  unfold write_fitting, null_terminate, remaining. cbn [b_text b_trunc].
  rewrite assert_true by (unfold len in *; lia).
  rewrite assert_true by (rewrite len_app; unfold len in *; lia).
  eexists. split; [reflexivity|]. exists (all ++ cs1), (c :: cs2).
  rewrite <- app_assoc. split; [reflexivity|]. rewrite text_app. cbn [b_text b_trunc]. rewrite T.
  split; [reflexivity|]. split; [rewrite len_app; unfold len; lia|].
  split; [rewrite len_app, <- T; unfold len in *; lia|].
  intros c' cs' Ec. injection Ec as <- <-. rewrite <- app_assoc, text_app, len_app, <- T.
  unfold len in *. lia.
Qed.

Lemma writes_law N ws : Forall (Forall scalar) ws -> forall all b, holds N all b ->
  exists b', writes N (map text ws) b = Some b' /\ holds N (all ++ concat ws) b'.
Proof.
  induction 1 as [|w ws F _ IH]; intros all b H.
  - exists b. cbn. rewrite app_nil_r. auto.
  - destruct (write_law N all b w H F) as (b1 & E & H1). cbn [map writes]. rewrite E. ob.
    destruct (IH _ _ H1) as (b2 & E2 & H2). exists b2. split; [exact E2|].
    cbn [concat]. rewrite app_assoc. exact H2.
Qed.

Lemma text_one c : text [c] = encode c.
Proof. unfold text. cbn [flat_map]. apply app_nil_r. Qed.

Lemma put_chars_law N cs : forall all b, holds N all b ->
  exists b', put_chars N (map encode cs) b = Some b' /\ holds N (all ++ cs) b'.
Proof.
  induction cs as [|c cs IH]; intros all b H.
  - exists b. rewrite app_nil_r. auto.
  - pose proof (holds_len _ _ _ H) as [L T0]. cbn [map put_chars].
    replace (all ++ c :: cs) with ((all ++ [c]) ++ cs) by (rewrite <- app_assoc; reflexivity).
    destruct (0 <? b_trunc b) eqn:Q; cbn [orb].
    + apply IH. rewrite <- text_one. apply holds_more; [exact H|lia].
    + destruct (holds_all _ _ _ H ltac:(lia)) as [T Z0].
      destruct (remaining N b <? len (encode c)) eqn:Q2; unfold remaining in Q2.
      * apply IH. exists all, [c]. cbn [b_text b_trunc]. rewrite text_one.
        split; [reflexivity|]. split; [exact T|]. split; [lia|]. split.
        -- rewrite <- T. exact L.
        -- intros c' cs' E. injection E as <- _. rewrite text_app, text_one, len_app, <- T. lia.
      * unfold write_fitting, null_terminate, remaining. cbn [b_text].
        rewrite assert_true by lia. rewrite assert_true by (rewrite len_app; lia). ob.
        apply IH. rewrite T, <- text_one. apply holds_fit; [|exact Z0].
        rewrite text_app, text_one, len_app, <- T. lia.
Qed.

Lemma sprintf_law N all b out : holds N all b ->
  exists cs b', lossy (firstn (Z.to_nat (N - 1)) out) cs /\ holds N (all ++ cs) b'
    /\ sprintf N out b = Some (FBuf (b_text b') (b_trunc b' + Z.max 0 (len out - (N - 1)))).
Proof.
  intros H. pose proof (holds_len _ _ _ H) as [L T0]. pose proof (len_nonneg (b_text b)).
  unfold sprintf. cbv zeta.
  assert (Q : firstn (Z.to_nat (Z.min (N - 1) (len out))) out = firstn (Z.to_nat (N - 1)) out).
  { destruct (Z.le_gt_cases (len out) (N - 1)).
    - rewrite !firstn_all2 by (unfold len in *; lia). reflexivity.
    - rewrite Z.min_l by lia. reflexivity. }
  rewrite Q. destruct (decode_law _ (firstn (Z.to_nat (N - 1)) out) (le_n _)) as (cs & D & Y).
  rewrite D. ob. destruct (put_chars_law N cs all b H) as (b' & E & H'). rewrite E. ob.
  exists cs, b'. split; [exact Y|]. split; [exact H'|].
  pose proof (holds_len _ _ _ H') as [L' _].
  unfold null_terminate. cbn [b_text]. rewrite assert_true by lia. f_equal. f_equal. lia.
Qed.

Lemma sprintf_fits N b out : is_text (b_text b) -> b_trunc b = 0 -> is_text out ->
  len (b_text b) + len out < N -> sprintf N out b = Some (FBuf (b_text b ++ out) 0).
Proof.
  intros (all & Fa & Ta) Z0 (ts & Ft & Tt) L.
  pose proof (len_nonneg (b_text b)). pose proof (len_nonneg out).
  assert (H1 : holds N all b).
  { exists all, []. rewrite app_nil_r, <- Ta. split; [reflexivity|]. split; [reflexivity|].
    change (len (text [])) with 0. split; [exact Z0|]. split; [lia|]. intros c cs Q. discriminate Q. }
  destruct (sprintf_law N all b out H1) as (cs & b' & Y & H' & E).
  rewrite firstn_all2 in Y by (unfold len in *; lia).
  pose proof (lossy_text _ _ Y ts Ft Tt) as M.
  assert (TT : text cs = out).
  { rewrite Tt. unfold text. rewrite !flat_map_concat_map, M. reflexivity. }
  rewrite E. destruct H' as (cs1 & cs2 & E1 & T1 & C1 & L1 & M1).
  destruct cs2 as [|c cs2].
  - rewrite app_nil_r in E1. rewrite T1, C1, <- E1, text_app, TT, <- Ta.
    change (len (text [])) with 0. f_equal. f_equal. lia.
  - exfalso. specialize (M1 c cs2 eq_refl).
    assert (len (text (all ++ cs)) = len (b_text b) + len out)
      by (rewrite text_app, len_app, TT, <- Ta; reflexivity).
    rewrite E1 in H2. replace (cs1 ++ c :: cs2) with ((cs1 ++ [c]) ++ cs2) in H2
      by (rewrite <- app_assoc; reflexivity).
    rewrite text_app, len_app in H2. pose proof (len_nonneg (text cs2)). lia.
Qed.

(** any operations *)
Lemma holds_safe N all b : Forall scalar all -> holds N all b -> safe N b.
Proof.
  intros F H. pose proof (holds_len _ _ _ H) as [L T]. split; [|auto].
  destruct H as (cs1 & cs2 & -> & E & _). apply Forall_app in F. exists cs1. split; [apply F|exact E].
Qed.

Lemma put_chars_full N cs : forall b, 0 < b_trunc b ->
  exists t, put_chars N cs b = Some (FBuf (b_text b) t) /\ b_trunc b <= t.
Proof.
  induction cs as [|c cs IH]; intros b H.
  - exists (b_trunc b). destruct b. split; [reflexivity|cbn; lia].
  - cbn [put_chars]. destruct (0 <? b_trunc b) eqn:Q; [|lia]. cbn [orb].
    pose proof (len_nonneg c).
    destruct (IH (FBuf (b_text b) (b_trunc b + len c))) as (t & E & L); [cbn; lia|].
    cbn [b_text b_trunc] in *. exists t. split; [exact E|lia].
Qed.

Lemma op_law N o b : safe N b -> good_op o ->
  exists b', apply_op N o b = Some b' /\ safe N b'
    /\ (o <> Reset -> (exists more, b_text b' = b_text b ++ more)
        /\ b_trunc b <= b_trunc b' /\ (0 < b_trunc b -> b_text b' = b_text b))
    /\ (o = Reset -> b' = FBuf [] 0).
Proof.
  intros (T & L & T0) G. pose proof (len_nonneg (b_text b)) as N0.
  assert (HR : b_trunc b <= 0 -> exists all, Forall scalar all /\ b_text b = text all /\ holds N all b).
  { intros Z0. destruct T as (all & F & E). exists all. split; [exact F|]. split; [exact E|].
    exists all, []. rewrite app_nil_r. split; [reflexivity|]. split; [exact E|].
    change (len (text [])) with 0. split; [lia|]. split; [rewrite <- E; exact L|].
    intros c cs Q. discriminate Q. }
  assert (FIN : forall all cs b', Forall scalar all -> Forall scalar cs -> holds N all b -> b_trunc b <= 0 ->
    holds N (all ++ cs) b' -> safe N b' /\ (exists more, b_text b' = b_text b ++ more) /\ b_trunc b <= b_trunc b').
  { intros all cs b' F1 F2 H Z0 H'.
    assert (S' : safe N b') by (apply (holds_safe N (all ++ cs)); [apply Forall_app; auto|exact H']).
    split; [exact S'|]. destruct (holds_all _ _ _ H Z0) as [E Z1].
    split; [|destruct S'; lia].
    destruct H' as (cs1 & cs2 & Ea & Et & Ec & El & Em). rewrite E, Et.
    (* the longest prefix that fits includes what fitted before *)
    assert (P : (length all <= length cs1)%nat).
    { destruct (Nat.le_gt_cases (length all) (length cs1)) as [|K]; [assumption|]. exfalso.
      assert (Q : cs1 ++ cs2 = all ++ cs) by (symmetry; exact Ea).
      assert (A1 : exists x xs, all = cs1 ++ x :: xs).
      { exists (nth (length cs1) all 0), (skipn (length cs1 + 1) all).
        rewrite <- (firstn_skipn (length cs1) all) at 1.
        assert (firstn (length cs1) all = cs1) as ->.
        { apply (f_equal (firstn (length cs1))) in Q. rewrite firstn_len_app in Q.
          rewrite firstn_app in Q. replace (length cs1 - length all)%nat with 0%nat in Q by lia.
          rewrite firstn_O, app_nil_r in Q. symmetry. exact Q. }
        f_equal. clear - K. revert K. generalize (length cs1). intros n. revert all.
        induction n as [|n IH]; intros [|y all] K; cbn in *; try lia; [reflexivity|]. apply IH. lia. }
      destruct A1 as (x & xs & ->). rewrite <- app_assoc in Q. apply app_inv_head in Q.
      specialize (Em x (xs ++ cs) Q).
      assert (len (text (cs1 ++ x :: xs)) < N) by (rewrite <- E; exact L).
      replace (cs1 ++ x :: xs) with ((cs1 ++ [x]) ++ xs) in H0 by (rewrite <- app_assoc; reflexivity).
      rewrite text_app, len_app in H0. pose proof (len_nonneg (text xs)). lia. }
    exists (text (skipn (length all) cs1)). rewrite <- text_app. f_equal.
    rewrite <- (firstn_skipn (length all) cs1) at 1. f_equal.
    apply (f_equal (firstn (length all))) in Ea. rewrite firstn_len_app in Ea.
    rewrite firstn_app in Ea. replace (length all - length cs1)%nat with 0%nat in Ea by lia.
    rewrite firstn_O, app_nil_r in Ea. symmetry. exact Ea. }
  destruct o as [src|out|]; cbn [apply_op].
  - destruct (Z.le_gt_cases (b_trunc b) 0) as [Z0|Z0].
    + destruct (HR Z0) as (all & F & E & H). destruct G as (cs & Fc & ->).
      destruct (write_law N all b cs H Fc) as (b' & W & H'). exists b'. split; [exact W|].
      destruct (FIN all cs b' F Fc H Z0 H') as (S' & M & B). split; [exact S'|].
      split; [|discriminate]. intros _. repeat split; auto. lia.
    + unfold write_str. destruct (0 <? b_trunc b) eqn:Q; [|lia].
      eexists. split; [reflexivity|]. pose proof (len_nonneg src). split.
      * repeat split; cbn [b_text b_trunc]; auto; lia.
      * split; [|discriminate]. intros _. cbn [b_text b_trunc]. split; [exists []; rewrite app_nil_r; reflexivity|]. split; [lia|auto].
  - destruct (Z.le_gt_cases (b_trunc b) 0) as [Z0|Z0].
    + destruct (HR Z0) as (all & F & E & H).
      destruct (sprintf_law N all b out H) as (cs & b' & Y & H' & W). rewrite W.
      eexists. split; [reflexivity|].
      destruct (FIN all cs b' F (lossy_scalar _ _ Y) H Z0 H') as ((S1 & S2 & S3) & M & B).
      split; [repeat split; cbn [b_text b_trunc]; auto; lia|].
      split; [|discriminate]. intros _. cbn [b_text b_trunc]. split; [exact M|]. split; [lia|lia].
    + unfold sprintf. cbv zeta.
      destruct (decode_law _ (firstn (Z.to_nat (Z.min (N - 1) (len out))) out) (le_n _)) as (cs & D & Y).
      rewrite D. ob. destruct (put_chars_full N (map encode cs) b Z0) as (t & W & Lt).
      rewrite W. ob. unfold null_terminate. cbn [b_text b_trunc]. rewrite assert_true by lia.
      eexists. split; [reflexivity|]. cbn [b_text b_trunc].
      split; [repeat split; cbn [b_text b_trunc]; auto; lia|].
      split; [|discriminate]. intros _. split; [exists []; rewrite app_nil_r; reflexivity|]. split; [lia|auto].
  - unfold null_terminate. cbn [b_text]. rewrite assert_true by (change (len []) with 0; lia).
    eexists. split; [reflexivity|]. split; [|split; [congruence|reflexivity]].
    split; [exists []; auto|]. cbn [b_text b_trunc]. change (len []) with 0. lia.
Qed.

Lemma ops_law N os : 1 <= N -> Forall good_op os ->
  exists b0 b, fnew N = Some b0 /\ apply_ops N os b0 = Some b /\ safe N b.
Proof.
  intros H F. unfold fnew, null_terminate. cbn [b_text]. change (len []) with 0.
  rewrite !assert_true by lia. eexists _. 
  assert (G : forall b, safe N b -> exists b', apply_ops N os b = Some b' /\ safe N b').
  { induction F as [|o os G F IH]; intros b S; [exists b; auto|].
    destruct (op_law N o b S G) as (b1 & E & S1 & _ & _). cbn [apply_ops]. rewrite E. ob. apply IH, S1. }
  destruct (G (FBuf [] 0)) as (b & E & S).
  { split; [exists []; auto|]. cbn [b_text b_trunc]. change (len []) with 0. lia. }
  exists b. auto.
Qed.

Lemma new_law N ws : 1 <= N -> Forall (Forall scalar) ws ->
  exists b0 b, fnew N = Some b0 /\ writes N (map text ws) b0 = Some b /\ holds N (concat ws) b.
Proof.
  intros H F. unfold fnew, null_terminate. cbn [b_text]. change (len []) with 0.
  rewrite !assert_true by lia.
  destruct (writes_law N ws F [] _ (holds_empty N H)) as (b & E & Hb). eexists _, b. eauto.
Qed.

Lemma decode_bytes bs : exists cs, decode (length bs) bs = Some (map encode cs) /\ lossy bs cs.
Proof. apply decode_law. lia. Qed.

Lemma decode_text cs : Forall scalar cs -> decode (length (text cs)) (text cs) = Some (map encode cs).
Proof.
  intros F. destruct (decode_bytes (text cs)) as (cs' & D & Y). rewrite D. f_equal.
  eapply lossy_text; eauto.
Qed.

Lemma lossy_det bs cs : lossy bs cs -> forall cs', lossy bs cs' -> map encode cs = map encode cs'.
Proof.
  assert (NE : forall c r, encode c ++ r <> []).
  { intros c r E. pose proof (encode_len c). destruct (encode c); [cbn in *; lia|discriminate]. }
  induction 1 as [|c r cs S Y IH|j r cs J P R Y IH]; intros cs' Y'.
  - inversion Y' as [|c r cs2 S Y2 E|j r cs2 J P R Y2 E]; [reflexivity| |].
    + exfalso. eapply NE; eauto.
    + exfalso. destruct j; [congruence|discriminate].
  - inversion Y' as [E|c' r' cs2 S' Y2 E|j r' cs2 J P R Y2 E].
    + exfalso. eapply NE; eauto.
    + apply encode_inj in E; auto. destruct E as [E1 ->]. cbn [map]. rewrite E1. f_equal. auto.
    + exfalso. apply (P O); [destruct j; [congruence|cbn; lia]|]. cbn [skipn]. rewrite E. exists c, r. auto.
  - inversion Y' as [E|c' r' cs2 S' Y2 E|j' r' cs2 J' P' R' Y2 E].
    + exfalso. destruct j; [congruence|discriminate].
    + exfalso. apply (P O); [destruct j; [congruence|cbn; lia]|]. cbn [skipn]. exists c', r'. auto.
    + assert (r' = r) as ->.
      { assert (Lj : length j' = length j).
        { destruct (Nat.lt_trichotomy (length j') (length j)) as [K|[K|K]]; [|exact K|].
          - exfalso. apply (P (length j') K). rewrite <- E, skipn_len_app.
            destruct R' as [->|R']; [|exact R'].
            apply (f_equal (@length Z)) in E. rewrite !app_length in E. cbn in E. lia.
          - exfalso. apply (P' (length j) K). rewrite E, skipn_len_app.
            destruct R as [->|R]; [|exact R].
            apply (f_equal (@length Z)) in E. rewrite !app_length in E. cbn in E. lia. }
        apply (f_equal (skipn (length j))) in E. rewrite skipn_len_app in E.
        rewrite <- Lj, skipn_len_app in E. exact E. }
      cbn [map]. f_equal. auto.
Qed.
