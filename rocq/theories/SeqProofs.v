(** Sequence ranges denote sets. *)
From Verif Require Import Base SeqModel SeqSpec.

Ltac md := unfold seq_add, seq_sub, seq_diff, M32, is_seq in *.
(** [x mod M32] by cases. *)
Lemma mod_of x y : 0 <= y < 4294967296 -> (exists k, x = y + k * 4294967296) -> x mod 4294967296 = y.
Proof. intros B (k & ->). rewrite Z.mod_add by lia. now apply Z.mod_small. Qed.
Lemma mod_ex x : exists k, x = x mod 4294967296 + k * 4294967296 /\ 0 <= x mod 4294967296 < 4294967296.
Proof. exists (x / 4294967296). pose proof (Z.div_mod x 4294967296 ltac:(lia)). pose proof (Z.mod_pos_bound x 4294967296 ltac:(lia)). lia. Qed.
Ltac gm x := let k := fresh "k" in let E := fresh "E" in let B := fresh "B" in
  destruct (mod_ex x) as (k & E & B); generalize dependent (x mod 4294967296); intros.

Lemma len_bound r : 0 <= len r < 4294967296.
Proof. unfold len. md. apply Z.mod_pos_bound. lia. Qed.
Lemma len_end r : is_range r -> end_ r = (start r + len r) mod 4294967296.
Proof.
  intros (S & E). unfold len. md. symmetry. apply mod_of; [exact E|]. destruct (mod_ex (end_ r - start r)) as (k & Q & _).
  exists (- k). lia.
Qed.
Lemma len_unique r n : is_range r -> 0 <= n < 4294967296 -> end_ r = (start r + n) mod 4294967296 -> n = len r.
Proof.
  intros (S & E) B Q. unfold len. md. symmetry. apply mod_of; [exact B|]. rewrite Q. destruct (mod_ex (start r + n)) as (k & X & _). exists (- k). lia.
Qed.

(** Offsets from a base. *)
Definition off (b x : Z) : Z := (x - b) mod 4294967296.
Lemma off_bound b x : 0 <= off b x < 4294967296.
Proof. apply Z.mod_pos_bound. lia. Qed.
Lemma off_add b i : off b ((b + i) mod 4294967296) = i mod 4294967296.
Proof. unfold off. rewrite Zminus_mod_idemp_l. f_equal. lia. Qed.
Lemma off_back b x : is_seq x -> x = (b + off b x) mod 4294967296.
Proof. intros S. unfold off. rewrite Zplus_mod_idemp_r. replace (b + (x - b)) with x by lia. symmetry. now apply Z.mod_small. Qed.

Lemma member_off r x : is_range r -> is_seq x -> (member r x <-> off (start r) x < len r).
Proof.
  intros R S. split.
  - intros (n & i & I & N & E & ->). rewrite off_add. assert (n = len r) as -> by (apply len_unique; auto; lia). rewrite Z.mod_small; lia.
  - intros L. exists (len r), (off (start r) x). pose proof (off_bound (start r) x). pose proof (len_bound r). pose proof (len_end r R).
    repeat split; try lia. now apply off_back.
Qed.
Lemma member_seq r x : member r x -> is_seq x.
Proof. intros (n & i & I & N & E & ->). apply Z.mod_pos_bound. lia. Qed.

Theorem contains_main r x : is_range r -> is_seq x -> (contains r x = true <-> member r x).
Proof. intros R S. rewrite member_off by assumption. unfold contains. rewrite Z.ltb_lt. reflexivity. Qed.

Theorem len_main r : is_range r -> exists l, NoDup l /\ Z.of_nat (length l) = len r /\ forall x, In x l <-> member r x.
Proof.
  intros R. pose proof (len_bound r) as B. exists (map (fun i => (start r + Z.of_nat i) mod 4294967296) (seq 0 (Z.to_nat (len r)))).
  split; [|split].
  - assert (I : forall i, In i (seq 0 (Z.to_nat (len r))) -> Z.of_nat i < len r) by (intros i J; apply in_seq in J; lia).
    pose proof (seq_NoDup (Z.to_nat (len r)) 0) as N. revert I. induction N as [|i l NI N IH]; intros I; [constructor|]. cbn [map]. constructor.
    + intros J. apply in_map_iff in J. destruct J as (j & E & J). apply NI. replace i with j; [exact J|].
      assert (E' : off (start r) ((start r + Z.of_nat j) mod 4294967296) = off (start r) ((start r + Z.of_nat i) mod 4294967296)) by now rewrite E.
      rewrite !off_add in E'. specialize (I i (or_introl eq_refl)) as I1. specialize (I j (or_intror J)).
      rewrite !Z.mod_small in E' by lia. lia.
    + apply IH. intros j J. apply I. now right.
  - rewrite map_length, seq_length. lia.
  - intros x. rewrite in_map_iff. split.
    + intros (i & <- & I). apply in_seq in I. exists (len r), (Z.of_nat i). pose proof (len_end r R). repeat split; lia.
    + intros (n & i & I & N & E & ->). assert (n = len r) as -> by (apply len_unique; auto; lia). exists (Z.to_nat i). rewrite Z2Nat.id by lia.
      split; [reflexivity|]. apply in_seq. lia.
Qed.

(** A range has one beginning. *)
Lemma one_start r x : is_range r -> member r x -> ~ member r ((x - 1) mod 4294967296) -> x = start r.
Proof.
  intros R M N. pose proof (member_seq _ _ M) as S. rewrite member_off in M by assumption.
  assert (S' : is_seq ((x - 1) mod 4294967296)) by (apply Z.mod_pos_bound; lia).
  rewrite member_off in N by assumption.
  pose proof (off_bound (start r) x). rewrite (off_back (start r) x S). destruct (Z.eq_dec (off (start r) x) 0) as [Z0|NZ].
  - rewrite Z0. replace (start r + 0) with (start r) by lia. apply Z.mod_small. apply R.
  - exfalso. apply N. replace (off (start r) ((x - 1) mod 4294967296)) with (off (start r) x - 1); [lia|].
    unfold off at 2. rewrite Zminus_mod_idemp_l. symmetry. apply mod_of; [lia|]. unfold off. destruct (mod_ex (x - start r)) as (k & E & _). exists k. lia.
Qed.
Lemma first_member r : is_range r -> 0 < len r -> member r (start r) /\ ~ member r ((start r - 1) mod 4294967296).
Proof.
  intros R L. pose proof R as (S & E). assert (S' : is_seq ((start r - 1) mod 4294967296)) by (apply Z.mod_pos_bound; lia).
  pose proof (len_bound r). rewrite !member_off by assumption. split.
  - unfold off. replace (start r - start r) with 0 by lia. rewrite Z.mod_0_l; lia.
  - unfold off. rewrite Zminus_mod_idemp_l. replace (start r - 1 - start r) with (4294967295 + (-1) * 4294967296) by lia.
    rewrite Z.mod_add by lia. rewrite Z.mod_small by lia. lia.
Qed.
Lemma nonempty_len r : is_range r -> ((exists x, member r x) <-> 0 < len r).
Proof.
  intros R. split.
  - intros (x & M). pose proof (member_seq _ _ M). rewrite member_off in M by assumption. pose proof (off_bound (start r) x). lia.
  - intros L. exists (start r). now apply first_member.
Qed.
Lemma same_len r r' : is_range r -> is_range r' -> start r = start r' -> (forall x, member r x <-> member r' x) -> len r = len r'.
Proof.
  intros R R' S E. pose proof (len_bound r). pose proof (len_bound r').
  assert (G : forall a b, is_range a -> is_range b -> start a = start b -> (forall x, member a x -> member b x) -> len a <= len b).
  { clear. intros a b A B S I. pose proof (len_bound a). pose proof (len_bound b). destruct (Z.le_gt_cases (len a) (len b)) as [X|X]; [exact X|exfalso].
    specialize (I ((start a + len b) mod 4294967296)). assert (is_seq ((start a + len b) mod 4294967296)) by (apply Z.mod_pos_bound; lia).
    rewrite !member_off in I by assumption. rewrite off_add in I. rewrite S, off_add in I. rewrite Z.mod_small in I by lia. lia. }
  apply Z.le_antisymm; apply G; auto; intros x; apply E.
Qed.
Lemma range_unique r r' : is_range r -> is_range r' -> (exists x, member r x) -> (forall x, member r x <-> member r' x) -> r = r'.
Proof.
  intros R R' NE E. apply nonempty_len in NE as L; [|exact R]. destruct (first_member r R L) as (F & N).
  assert (S : start r = start r') by (apply one_start; [exact R'|now apply E|intros X; apply N; now apply E]).
  pose proof (same_len r r' R R' S E) as LE. pose proof (len_end r R) as E1. pose proof (len_end r' R') as E2.
  destruct r as [s e], r' as [s' e']. cbn in S. subst s'. f_equal. cbn [start end_] in *. rewrite E1, E2. now rewrite LE.
Qed.

(** ** Intersection. Everything relative to the start of [b]: it is [0, m); [a] starts at [p] and has [n] numbers. *)
Definition at_ (p n x : Z) : Prop := exists i, 0 <= i < n /\ x = (p + i) mod 4294967296.
Lemma off_shift s b x : off s x = (off b x - off b s) mod 4294967296.
Proof. unfold off. rewrite <- Zminus_mod. f_equal. lia. Qed.
Lemma member_from b r x : is_range r -> is_seq x -> (member r x <-> (off b x - off b (start r)) mod 4294967296 < len r).
Proof. intros R S. rewrite member_off by assumption. now rewrite (off_shift (start r) b x). Qed.
Lemma len_from b r : is_range r -> len r = (off b (end_ r) - off b (start r)) mod 4294967296.
Proof. intros R. unfold len. md. apply (off_shift (start r) b). Qed.

(** The difference of two offsets. *)
Lemma dmod u v : 0 <= u < 4294967296 -> 0 <= v < 4294967296 -> (u - v) mod 4294967296 = if v <=? u then u - v else u - v + 4294967296.
Proof.
  intros U V. destruct (Z.leb_spec v u); apply mod_of; try lia; [exists 0|exists (-1)]; lia.
Qed.

Section Inter.
Variables a b : range.
Hypothesis RA : is_range a.
Hypothesis RB : is_range b.
Hypothesis LA : 0 < len a.
Hypothesis LB : 0 < len b.
Let p := off (start b) (start a).
Let q := off (start b) (end_ a).
Let m := off (start b) (end_ b).

Lemma base_zero : off (start b) (start b) = 0.
Proof using All. unfold off. now rewrite Z.sub_diag. Qed.
Lemma p_bound : 0 <= p < 4294967296. Proof using All. apply off_bound. Qed.
Lemma q_bound : 0 <= q < 4294967296. Proof using All. apply off_bound. Qed.
Lemma m_bound : 0 < m < 4294967296.
Proof using All.
  unfold m. pose proof (off_bound (start b) (end_ b)). pose proof LB as L. rewrite (len_from (start b) b RB), base_zero in L. rewrite Z.sub_0_r, Z.mod_small in L by lia. lia.
Qed.
Lemma p_ne_q : p <> q.
Proof using All. intros E. pose proof LA as L. rewrite (len_from (start b) a RA) in L. fold p q in L. rewrite E, Z.sub_diag in L. discriminate L. Qed.
Lemma in_b x : is_seq x -> (member b x <-> off (start b) x < m).
Proof using All.
  intros S. rewrite (member_from (start b)) by assumption. rewrite (len_from (start b) b RB), base_zero, !Z.sub_0_r.
  rewrite !Z.mod_small by apply off_bound. reflexivity.
Qed.
Lemma in_a x : is_seq x ->
  (member a x <-> if p <? q then p <= off (start b) x < q else p <= off (start b) x \/ off (start b) x < q).
Proof using All.
  intros S. rewrite (member_from (start b)) by assumption. rewrite (len_from (start b) a RA). fold p q.
  pose proof (off_bound (start b) x). pose proof p_bound. pose proof q_bound. pose proof p_ne_q. rewrite !dmod by assumption.
  destruct (Z.ltb_spec p q), (Z.leb_spec p (off (start b) x)), (Z.leb_spec p q); lia.
Qed.

Lemma off_pred x : is_seq x -> off (start b) (seq_sub x 1) = if off (start b) x =? 0 then 4294967295 else off (start b) x - 1.
Proof using All.
  intros S. unfold seq_sub, M32. unfold off at 1. rewrite Zminus_mod_idemp_l. unfold off. destruct (mod_ex (x - start b)) as (k & E & B).
  destruct (Z.eqb_spec ((x - start b) mod 4294967296) 0); apply mod_of; try lia; [exists (k - 1)|exists k]; lia.
Qed.
Lemma seq_sub_ok x : is_seq (seq_sub x 1).
Proof using All. unfold seq_sub, M32. apply Z.mod_pos_bound. lia. Qed.

Definition good (r : option range) : Prop := forall r', is_range r' ->
  (r = Some r' <-> (exists x, member r' x) /\ forall x, member r' x <-> member a x /\ member b x).

(** A range whose members are those of both is the answer. *)
Lemma good_some r : is_range r -> (exists x, member r x) -> (forall x, is_seq x -> (member r x <-> member a x /\ member b x)) -> good (Some r).
Proof using All.
  intros R NE E. assert (E' : forall x, member r x <-> member a x /\ member b x).
  { intros x. split; intros X; [apply E; [eapply member_seq; eassumption|exact X]|apply E; [eapply member_seq; apply X|exact X]]. }
  intros r' R'. split.
  - intros X. injection X as <-. split; assumption.
  - intros (_ & Q). f_equal. apply range_unique; auto. intros x. rewrite E', Q. reflexivity.
Qed.
Lemma good_disjoint : (forall x, is_seq x -> ~ (member a x /\ member b x)) -> good None.
Proof using All.
  intros N r' R'. split; [discriminate|]. intros ((x & X) & Q). exfalso. apply (N x); [eapply member_seq; eassumption|now apply Q].
Qed.
Lemma good_two x y : is_seq x -> is_seq y -> x <> y -> member a x /\ member b x -> member a y /\ member b y ->
  ~ (member a (seq_sub x 1) /\ member b (seq_sub x 1)) -> ~ (member a (seq_sub y 1) /\ member b (seq_sub y 1)) -> good None.
Proof using All.
  intros SX SY NE MX MY NX NY r' R'. split; [discriminate|]. intros (_ & Q). exfalso. apply NE.
  transitivity (start r'); [|symmetry]; apply one_start; auto; try now apply Q.
  - intros X. apply NX. now apply Q.
  - intros X. apply NY. now apply Q.
Qed.

(** Members of a range given by offsets [u] to [v]. *)
Lemma in_uv r x : is_range r -> is_seq x -> off (start b) (start r) <> off (start b) (end_ r) ->
  (member r x <-> if off (start b) (start r) <? off (start b) (end_ r)
     then off (start b) (start r) <= off (start b) x < off (start b) (end_ r)
     else off (start b) (start r) <= off (start b) x \/ off (start b) x < off (start b) (end_ r)).
Proof using All.
  intros R S NE. rewrite (member_from (start b)) by assumption. rewrite (len_from (start b) r R).
  pose proof (off_bound (start b) x). pose proof (off_bound (start b) (start r)). pose proof (off_bound (start b) (end_ r)).
  rewrite !dmod by assumption.
  destruct (Z.ltb_spec (off (start b) (start r)) (off (start b) (end_ r))), (Z.leb_spec (off (start b) (start r)) (off (start b) x)),
    (Z.leb_spec (off (start b) (start r)) (off (start b) (end_ r))); lia.
Qed.
Lemma ne_uv r : is_range r -> off (start b) (start r) <> off (start b) (end_ r) -> exists x, member r x.
Proof using All.
  intros R NE. apply nonempty_len; [exact R|]. rewrite (len_from (start b) r R).
  pose proof (off_bound (start b) (start r)). pose proof (off_bound (start b) (end_ r)). rewrite dmod by assumption.
  destruct (Z.leb_spec (off (start b) (start r)) (off (start b) (end_ r))); lia.
Qed.

Lemma contains_b x : is_seq x -> contains b x = (off (start b) x <? m).
Proof using All.
  intros S. apply Bool.eq_iff_eq_true. rewrite contains_main by assumption. rewrite in_b by assumption. now rewrite Z.ltb_lt.
Qed.
Lemma contains_a x : is_seq x -> contains a x = if p <? q then (p <=? off (start b) x) && (off (start b) x <? q) else (p <=? off (start b) x) || (off (start b) x <? q).
Proof using All.
  intros S. apply Bool.eq_iff_eq_true. rewrite contains_main by assumption. rewrite in_a by assumption.
  destruct (p <? q); [rewrite andb_true_iff, Z.leb_le, Z.ltb_lt|rewrite orb_true_iff, Z.leb_le, Z.ltb_lt]; reflexivity.
Qed.

Lemma inter_nonempty : good (intersection a b).
Proof using All.
  pose proof p_bound as BP. pose proof q_bound as BQ. pose proof m_bound as BM. pose proof p_ne_q as NPQ.
  pose proof RA as (SA & EA). pose proof RB as (SB & EB).
  unfold intersection, is_empty. destruct (Z.eqb_spec (len a) 0); [lia|]. destruct (Z.eqb_spec (len b) 0); [lia|].
  rewrite !contains_b by (assumption || apply seq_sub_ok). rewrite !contains_a by (assumption || apply seq_sub_ok).
  rewrite !off_pred by assumption. rewrite base_zero. fold p q m.
  change (seq_diff (start a) (start b)) with p. change (seq_diff (end_ a) (start b)) with q.
  assert (UV : forall r u v, is_range r -> off (start b) (start r) = u -> off (start b) (end_ r) = v -> u <> v ->
     (forall z, 0 <= z < 4294967296 -> (if u <? v then u <= z < v else u <= z \/ z < v) <->
        (if p <? q then p <= z < q else p <= z \/ z < q) /\ z < m) -> good (Some r)).
  { intros r u v R U V NE E. apply good_some; [exact R|apply ne_uv; congruence|]. intros x S. rewrite in_uv by (congruence || assumption).
    rewrite U, V. rewrite in_a, in_b by assumption. apply E. apply off_bound. }
  destruct (Z.ltb_spec p m) as [PM|PM]; destruct (Z.eqb_spec q 0) as [Q0|Q0].
  - destruct (Z.ltb_spec 4294967295 m); [lia|].
    apply (UV {| start := start a; end_ := end_ b |} p m); try reflexivity; [split; assumption|lia|].
    intros z Z. destruct (Z.ltb_spec p m), (Z.ltb_spec p q); lia.
  - destruct (Z.ltb_spec (q - 1) m) as [QM|QM].
    + destruct (Z.ltb_spec p q) as [PQ|PQ].
      * apply (UV a p q); try reflexivity; [assumption|lia|]. intros z Z. destruct (Z.ltb_spec p q); lia.
      * apply (good_two (start a) (start b)); try assumption.
        -- intros E. unfold p in *. rewrite E, base_zero in *. lia.
        -- rewrite in_a, in_b by assumption. fold p. destruct (Z.ltb_spec p q); lia.
        -- rewrite in_a, in_b by assumption. rewrite base_zero. destruct (Z.ltb_spec p q); lia.
        -- rewrite in_a, in_b by apply seq_sub_ok. rewrite off_pred by assumption. fold p. destruct (Z.ltb_spec p q), (Z.eqb_spec p 0); lia.
        -- rewrite in_a, in_b by apply seq_sub_ok. rewrite off_pred by assumption. rewrite base_zero. change (0 =? 0) with true. cbv iota. lia.
    + apply (UV {| start := start a; end_ := end_ b |} p m); try reflexivity; [split; assumption|lia|].
      intros z Z. destruct (Z.ltb_spec p m), (Z.ltb_spec p q); lia.
  - destruct (Z.ltb_spec 4294967295 m); [lia|].
    assert (X : (if p <? q then (p <=? 0) && (0 <? q) else (p <=? 0) || (0 <? q)) = false).
    { destruct (Z.ltb_spec p q), (Z.leb_spec p 0), (Z.ltb_spec 0 q); try reflexivity; lia. }
    rewrite X. cbn [andb]. apply good_disjoint. intros x S. rewrite in_a, in_b by assumption. pose proof (off_bound (start b) x).
    destruct (Z.ltb_spec p q); lia.
  - destruct (Z.ltb_spec (q - 1) m) as [QM|QM].
    + apply (UV {| start := start b; end_ := end_ a |} 0 q); [split; assumption|apply base_zero|reflexivity|lia|].
      intros z Z. destruct (Z.ltb_spec 0 q), (Z.ltb_spec p q); lia.
    + destruct (Z.eqb_spec m 0); [lia|].
      destruct (Z.ltb_spec p q) as [PQ|PQ].
      * destruct (Z.leb_spec p 0); [lia|]. cbn [andb]. apply good_disjoint. intros x S. rewrite in_a, in_b by assumption.
        pose proof (off_bound (start b) x). destruct (Z.ltb_spec p q); lia.
      * destruct (Z.ltb_spec 0 q); [|lia]. destruct (Z.ltb_spec (m - 1) q); [|lia]. rewrite !orb_true_r. cbn [andb].
        apply (UV b 0 m); [assumption|apply base_zero|reflexivity|lia|]. intros z Z. destruct (Z.ltb_spec 0 m), (Z.ltb_spec p q); lia.
Qed.
End Inter.

Theorem intersection_main a b r : is_range a -> is_range b -> is_range r -> (exists x, member a x) -> (exists x, member b x) ->
  (intersection a b = Some r <-> (exists x, member r x) /\ forall x, member r x <-> member a x /\ member b x).
Proof.
  intros RA RB R NA NB. apply nonempty_len in NA; [|assumption]. apply nonempty_len in NB; [|assumption].
  now apply (inter_nonempty a b RA RB NA NB).
Qed.
Lemma range_eta r : r = {| start := start r; end_ := end_ r |}.
Proof. now destruct r. Qed.
Lemma empty_iff r : is_range r -> ((~ exists x, member r x) <-> is_empty r = true).
Proof. intros R. rewrite nonempty_len by exact R. unfold is_empty. pose proof (len_bound r). rewrite Z.eqb_eq. lia. Qed.
Theorem intersection_valid a b r : is_range a -> is_range b -> intersection a b = Some r -> is_range r.
Proof.
  intros (SA & EA) (SB & EB). unfold intersection, then_some.
  destruct (is_empty a), (is_empty b); repeat match goal with |- context [if ?c then _ else _] => destruct c end;
    try discriminate; intros E; injection E as <-; split; assumption.
Qed.
Theorem intersection_empty a b r : is_range a -> is_range b -> ~ (exists x, member a x) -> (exists x, member b x) ->
  (intersection a b = Some r <-> r = a /\ member b (start a)).
Proof.
  intros RA RB NA NB. apply empty_iff in NA; [|assumption]. apply nonempty_len in NB; [|assumption].
  unfold intersection. rewrite NA. unfold is_empty. destruct (Z.eqb_spec (len b) 0); [lia|].
  rewrite <- contains_main by (assumption || apply RA). unfold then_some. destruct (contains b (start a)); intuition congruence.
Qed.
Theorem intersection_empties a b r : is_range a -> is_range b -> ~ (exists x, member a x) -> ~ (exists x, member b x) ->
  (intersection a b = Some r <-> r = a /\ a = b).
Proof.
  intros RA RB NA NB. apply empty_iff in NA; [|assumption]. apply empty_iff in NB; [|assumption].
  unfold intersection. rewrite NA, NB. unfold then_some, range_eqb. destruct a as [s e], b as [s' e']. cbn.
  destruct (Z.eqb_spec s s'), (Z.eqb_spec e e'); cbn; intuition congruence.
Qed.
Theorem intersection_sym a b : is_range a -> is_range b -> intersection a b = intersection b a.
Proof.
  intros RA RB.
  assert (SYM : forall a b r, is_range a -> is_range b -> intersection a b = Some r -> intersection b a = Some r).
  { clear. intros a b r RA RB E. pose proof (intersection_valid a b r RA RB E) as R. pose proof (len_bound a). pose proof (len_bound b).
    destruct (Z.eq_dec (len a) 0) as [A0|A0], (Z.eq_dec (len b) 0) as [B0|B0].
    - apply intersection_empties in E; try (rewrite nonempty_len by assumption; lia); auto. destruct E as (-> & <-).
      apply intersection_empties; try (rewrite nonempty_len by assumption; lia); auto.
    - unfold intersection, is_empty in *. apply Z.eqb_eq in A0. apply Z.eqb_neq in B0. rewrite A0, B0 in *. exact E.
    - unfold intersection, is_empty in *. apply Z.eqb_eq in B0. apply Z.eqb_neq in A0. rewrite A0, B0 in *. exact E.
    - apply intersection_main in E; try (rewrite nonempty_len by assumption; lia); auto.
      apply intersection_main; try (rewrite nonempty_len by assumption; lia); auto. destruct E as (NE & E). split; [exact NE|].
      intros x. rewrite E. tauto. }
  destruct (intersection a b) as [r|] eqn:E; [symmetry; now apply SYM|]. destruct (intersection b a) as [r|] eqn:E'; [|reflexivity].
  apply SYM in E'; auto. congruence.
Qed.
Theorem arith_main s n : is_seq s -> is_seq n -> is_seq (seq_add s n) /\ seq_diff (seq_add s n) s = n /\ seq_sub (seq_add s n) n = s /\ seq_add n (seq_diff s n) = s.
Proof.
  intros S N. md. rewrite !Zminus_mod_idemp_l, Zplus_mod_idemp_r.
  replace (s + n - s) with n by lia. replace (s + n - n) with s by lia. replace (n + (s - n)) with s by lia.
  rewrite !(Z.mod_small s), !(Z.mod_small n) by lia. split; [apply Z.mod_pos_bound; lia|auto].
Qed.
