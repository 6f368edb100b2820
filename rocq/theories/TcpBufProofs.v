From Verif Require Import Base SeqModel SeqSpec SeqProofs TcpBufModel TcpBufSpec.

(** * Lists *)
Lemma zlen_nonneg {A} (l : list A) : 0 <= zlen l. Proof. unfold zlen. lia. Qed.
Lemma zlen_app {A} (l l' : list A) : zlen (l ++ l') = zlen l + zlen l'.
Proof. unfold zlen. rewrite app_length. lia. Qed.
Lemma zlen_cons {A} (x : A) l : zlen (x :: l) = 1 + zlen l.
Proof. unfold zlen. cbn [length]. lia. Qed.
Lemma zlen_nil {A} : zlen (@nil A) = 0. Proof. reflexivity. Qed.
Lemma zlen_map {A B} (f : A -> B) l : zlen (map f l) = zlen l.
Proof. unfold zlen. now rewrite map_length. Qed.
Lemma zlen_0 {A} (l : list A) : zlen l = 0 -> l = [].
Proof. destruct l; [reflexivity|]. rewrite zlen_cons. pose proof (zlen_nonneg l). lia. Qed.
Lemma zlen_zfirst {A} n (l : list A) : zlen (zfirst n l) = Z.max 0 (Z.min n (zlen l)).
Proof. unfold zlen, zfirst. rewrite firstn_length. lia. Qed.
Lemma zlen_zskip {A} n (l : list A) : zlen (zskip n l) = Z.max 0 (zlen l - Z.max 0 n).
Proof. unfold zlen, zskip. rewrite skipn_length. lia. Qed.
Lemma zfirst_zskip {A} n (l : list A) : zfirst n l ++ zskip n l = l.
Proof. apply firstn_skipn. Qed.
Lemma zsum_zlen {A} (p : list (list A)) : zsum (map zlen p) = zlen (concat p).
Proof. induction p; cbn; [reflexivity|]. rewrite zlen_app. unfold zsum in IHp. now rewrite IHp. Qed.
Lemma zlen_cut {A} s lo hi (l : list A) : zlen (cut s lo hi l) = Z.max 0 (Z.min (zlen l) (Z.max 0 (hi - s)) - Z.max 0 (lo - s)).
Proof. unfold zlen, cut. rewrite skipn_length, firstn_length. lia. Qed.

Lemma cut_app {A} s lo hi (a b : list A) : cut s lo hi (a ++ b) = cut s lo hi a ++ cut (s + zlen a) lo hi b.
Proof.
  unfold cut. rewrite firstn_app, skipn_app. f_equal.
  replace (Z.to_nat (hi - (s + zlen a))) with (Z.to_nat (hi - s) - length a)%nat by (unfold zlen; lia).
  destruct (Nat.le_gt_cases (length a) (Z.to_nat (hi - s))) as [L|G].
  - f_equal. rewrite firstn_length. unfold zlen. lia.
  - replace (Z.to_nat (hi - s) - length a)%nat with 0%nat by lia. cbn [firstn]. now rewrite !skipn_nil.
Qed.
Lemma cut_nil {A} s lo hi : cut s lo hi (@nil A) = [].
Proof. unfold cut. now rewrite firstn_nil, skipn_nil. Qed.
Lemma cut_one {A} s lo hi (x : A) : cut s lo hi [x] = if (lo <=? s) && (s <? hi) then [x] else [].
Proof.
  unfold cut. destruct (Z.ltb_spec s hi) as [L|G].
  - destruct (Z.to_nat (hi - s)) as [|m] eqn:E; [lia|]. cbn [firstn]. rewrite firstn_nil. destruct (Z.leb_spec lo s).
    + replace (Z.to_nat (lo - s)) with 0%nat by lia. reflexivity.
    + destruct (Z.to_nat (lo - s)) as [|k] eqn:E2; [lia|]. cbn. now rewrite skipn_nil.
  - replace (Z.to_nat (hi - s)) with 0%nat by lia. cbn [firstn]. rewrite skipn_nil. now rewrite Bool.andb_false_r.
Qed.
Lemma cut_all {A} s lo hi (l : list A) : lo <= s -> s + zlen l <= hi -> cut s lo hi l = l.
Proof.
  intros L H. unfold cut. replace (Z.to_nat (lo - s)) with 0%nat by lia. cbn [skipn]. apply firstn_all2. unfold zlen in H. lia.
Qed.
Lemma cut_none {A} s lo hi (l : list A) : hi <= s \/ s + zlen l <= lo \/ hi <= lo -> cut s lo hi l = [].
Proof. intros H. apply zlen_0. rewrite zlen_cut. pose proof (zlen_nonneg l). lia. Qed.
Lemma cut_map {A B} (f : A -> B) s lo hi l : cut s lo hi (map f l) = map f (cut s lo hi l).
Proof. unfold cut. now rewrite firstn_map, skipn_map. Qed.
Lemma skipn_skipn' {A} n m (l : list A) : skipn n (skipn m l) = skipn (m + n) l.
Proof. revert l. induction m; intros l; [reflexivity|]. destruct l; cbn; [apply skipn_nil|apply IHm]. Qed.
Lemma cut_cut {A} p lo hi q (str : list A) : 0 <= p -> cut p lo hi (cut 0 p q str) = cut 0 (Z.max p lo) (Z.min q hi) str.
Proof.
  intros P. unfold cut. rewrite !Z.sub_0_r. rewrite firstn_skipn_comm, firstn_firstn, skipn_skipn'.
  destruct (Z.le_gt_cases p hi) as [L|G].
  - f_equal; [|f_equal]; lia.
  - replace (Z.to_nat (hi - p)) with 0%nat by lia.
    transitivity (@nil A); [|symmetry]; apply length_zero_iff_nil; rewrite skipn_length, firstn_length; lia.
Qed.
Lemma zfirst_cut {A} a b (l : list A) : 0 <= a <= b -> zfirst b l = zfirst a l ++ cut 0 a b l.
Proof.
  intros B. unfold cut, zfirst. rewrite !Z.sub_0_r. rewrite <- (firstn_skipn (Z.to_nat a) (firstn (Z.to_nat b) l)) at 1.
  f_equal. rewrite firstn_firstn. f_equal. lia.
Qed.
Lemma cut_split {A} a b c (l : list A) : 0 <= a <= b -> b <= c -> cut 0 a c l = cut 0 a b l ++ cut 0 b c l.
Proof.
  intros B C. assert (E : zfirst c l = zfirst a l ++ cut 0 a b l ++ cut 0 b c l).
  { rewrite app_assoc, <- (zfirst_cut a b) by lia. apply zfirst_cut. lia. }
  rewrite (zfirst_cut a c l) in E by lia. now apply app_inv_head in E.
Qed.
Lemma cut_zfirst {A} b (l : list A) : cut 0 0 b l = zfirst b l.
Proof. unfold cut, zfirst. now rewrite !Z.sub_0_r. Qed.
Lemma cut_zskip {A} a (l : list A) : cut 0 a (zlen l) l = zskip a l.
Proof. unfold cut, zskip. rewrite !Z.sub_0_r. rewrite firstn_all2; [reflexivity|]. unfold zlen. lia. Qed.
Lemma cut_ext {A} a b (l x : list A) : 0 <= a -> b <= zlen l -> cut 0 a b (l ++ x) = cut 0 a b l.
Proof.
  intros P B. rewrite cut_app. rewrite (cut_none (0 + zlen l)) by lia. apply app_nil_r.
Qed.
Lemma zfirst_ext {A} a (l x : list A) : a <= zlen l -> zfirst a (l ++ x) = zfirst a l.
Proof. intros B. rewrite <- !cut_zfirst. apply cut_ext; lia. Qed.
Lemma zskip_app {A} a (l x : list A) : a <= zlen l -> zskip a (l ++ x) = zskip a l ++ x.
Proof. intros B. unfold zskip. rewrite skipn_app. f_equal. replace (Z.to_nat a - length l)%nat with 0%nat by (unfold zlen in B; lia). reflexivity. Qed.
Lemma zskip_zskip {A} a b (l : list A) : 0 <= a -> 0 <= b -> zskip a (zskip b l) = zskip (a + b) l.
Proof. intros P Q. unfold zskip. rewrite skipn_skipn'. f_equal. lia. Qed.
Lemma cut_of_zskip {A} a b (l : list A) : 0 <= a -> cut 0 a b l = zfirst (b - a) (zskip a l).
Proof. intros P. unfold cut, zfirst, zskip. rewrite !Z.sub_0_r, firstn_skipn_comm. destruct (Z.le_gt_cases a b).
  - f_equal. f_equal. lia.
  - replace (Z.to_nat (b - a)) with 0%nat by lia. transitivity (@nil A); [|symmetry]; apply length_zero_iff_nil; rewrite skipn_length, firstn_length; lia.
Qed.

(** * Positions and sequence numbers *)
Ltac unm := unfold pos, seq_add, seq_sub, seq_diff, M32.
Lemma pos_seq i p : is_seq (pos i p). Proof. unm. apply Z.mod_pos_bound. lia. Qed.
Lemma pos_0 i : is_seq i -> pos i 0 = i. Proof. intros S. unm. rewrite Z.add_0_r. now apply Z.mod_small. Qed.
Lemma pos_add i p n : seq_add (pos i p) n = pos i (p + n).
Proof. unm. rewrite Zplus_mod_idemp_l. f_equal. lia. Qed.
Lemma pos_sub i p n : seq_sub (pos i p) n = pos i (p - n).
Proof. unm. rewrite Zminus_mod_idemp_l. f_equal. lia. Qed.
Lemma pos_diff_mod i a b : seq_diff (pos i a) (pos i b) = (a - b) mod 4294967296.
Proof. unm. rewrite <- Zminus_mod. f_equal. lia. Qed.
Lemma pos_diff i a b : 0 <= a - b < 4294967296 -> seq_diff (pos i a) (pos i b) = a - b.
Proof. intros B. rewrite pos_diff_mod. now apply Z.mod_small. Qed.
Lemma pos_inj i a b : - 4294967296 < a - b < 4294967296 -> pos i a = pos i b -> a = b.
Proof.
  intros B E. assert (X : (a - b) mod 4294967296 = 0) by (rewrite <- (pos_diff_mod i), E; unm; rewrite Z.sub_diag; reflexivity).
  destruct (mod_ex (a - b)) as (k & Q & _). lia.
Qed.
(** Every sequence number is a position near any other one. *)
Lemma pos_near i c s : is_seq s -> exists p, s = pos i p /\ c - 2147483648 <= p < c + 2147483648.
Proof.
  intros S. unfold is_seq in S. destruct (mod_ex (s - i - (c - 2147483648))) as (k & E & B).
  exists (s - i - k * 4294967296). split; [|lia].
  unm. symmetry. apply mod_of; [lia|]. exists (- k). lia.
Qed.

Definition rng (i a b : Z) : range := {| start := pos i a; end_ := pos i b |}.
Lemma len_rng i a b : 0 <= b - a < 4294967296 -> len (rng i a b) = b - a.
Proof. intros B. unfold len, rng. cbn [start end_]. now apply pos_diff. Qed.
Lemma contains_rng i a b x : 0 <= b - a < 4294967296 -> b - 4294967296 <= x < a + 4294967296 ->
  contains (rng i a b) (pos i x) = (a <=? x) && (x <? b).
Proof.
  intros B X. unfold contains. rewrite (len_rng i a b B). unfold len, rng. cbn [start end_]. rewrite pos_diff_mod.
  apply Bool.eq_iff_eq_true. rewrite Z.ltb_lt, andb_true_iff, Z.leb_le, Z.ltb_lt.
  destruct (Z.le_gt_cases a x).
  - rewrite Z.mod_small by lia. lia.
  - replace ((x - a) mod 4294967296) with (x - a + 4294967296); [lia|]. symmetry. apply mod_of; [lia|]. exists (-1). lia.
Qed.
Lemma range_eqb_spec a b : range_eqb a b = true <-> a = b.
Proof.
  unfold range_eqb. rewrite andb_true_iff, !Z.eqb_eq. destruct a, b. cbn. split; [intros (-> & ->); reflexivity|intros E; injection E; auto].
Qed.
Lemma rng_inj i a b c d : - 4294967296 < a - c < 4294967296 -> - 4294967296 < b - d < 4294967296 -> rng i a b = rng i c d -> a = c /\ b = d.
Proof. intros A B E. unfold rng in E. injection E as E1 E2. split; eapply pos_inj; eauto. Qed.

Lemma inter_rng i a b c d : a <= b -> c <= d -> b - a < 4294967296 -> d - c < 4294967296 -> b - c < 4294967296 -> d - a < 4294967296 ->
  intersection (rng i a b) (rng i c d) =
  if (if a =? b then if c =? d then a =? c else (c <=? a) && (a <? d) else if c =? d then (a <=? c) && (c <? b) else Z.max a c <? Z.min b d)
  then Some (rng i (Z.max a c) (Z.min b d)) else None.
Proof.
  intros AB CD L1 L2 L3 L4. unfold intersection, is_empty.
  rewrite !len_rng by lia. change (start (rng i a b)) with (pos i a). change (start (rng i c d)) with (pos i c).
  change (end_ (rng i a b)) with (pos i b). change (end_ (rng i c d)) with (pos i d).
  destruct (Z.eqb_spec (b - a) 0) as [A0|A0], (Z.eqb_spec a b) as [A1|A1]; try lia;
    destruct (Z.eqb_spec (d - c) 0) as [C0|C0], (Z.eqb_spec c d) as [C1|C1]; try lia; unfold then_some.
  - subst b d. replace (range_eqb (rng i a a) (rng i c c)) with (a =? c).
    + destruct (Z.eqb_spec a c); [|reflexivity]. subst c. now rewrite Z.max_id, Z.min_id.
    + apply Bool.eq_iff_eq_true. rewrite range_eqb_spec, Z.eqb_eq. split; [now intros ->|]. intros E. apply rng_inj in E; lia.
  - subst b. rewrite contains_rng by lia. destruct (Z.leb_spec c a), (Z.ltb_spec a d); cbn [andb]; try reflexivity.
    rewrite Z.max_l, Z.min_l by lia. reflexivity.
  - subst d. rewrite contains_rng by lia. destruct (Z.leb_spec a c), (Z.ltb_spec c b); cbn [andb]; try reflexivity.
    rewrite Z.max_r, Z.min_r by lia. reflexivity.
  - rewrite !pos_diff_mod, !pos_sub. rewrite !contains_rng by lia.
    destruct (Z.leb_spec c a), (Z.ltb_spec a d), (Z.leb_spec c (b - 1)), (Z.ltb_spec (b - 1) d); cbn [andb]; try lia;
      try (rewrite !Z.mod_small by lia; destruct (Z.ltb_spec (a - c) (b - c)); [|lia]);
      destruct (Z.ltb_spec (Z.max a c) (Z.min b d)); try lia;
      try (f_equal; unfold rng; f_equal; f_equal; lia).
    all: destruct (Z.leb_spec a c), (Z.ltb_spec c b), (Z.leb_spec a (d - 1)), (Z.ltb_spec (d - 1) b); cbn [andb]; try lia; try reflexivity;
      try (f_equal; unfold rng; f_equal; f_equal; lia).
Qed.
