From Coq Require Import Sorting.Sorted.
From Verif Require Import Base FMap BTree DescTableModel DescTableSpec.

Section P.
Context {D : Type}.
Implicit Types (t : table D) (T : contents D).

Definition lk t : contents D := fun n => get n (descriptors t).

(** Holds in every reachable state. *)
Record inv t : Prop := {
  i_ds : bsorted (descriptors t);
  i_av : ssorted (available t);
  i_dr : forall n, mem n (descriptors t) = true -> number n;
  i_ar : forall n, In n (available t) -> number n;
  i_disj : forall n, In n (available t) -> get n (descriptors t) = None;
  i_next : 0 <= next_index t <= FD_MAX + 1;
  i_low : forall n, 0 <= n < next_index t -> In n (available t) \/ mem n (descriptors t) = true }.

(** Holds as long as the program keeps to compact numbers. *)
Record compact t : Prop := {
  c_a : forall n, In n (available t) -> n < next_index t;
  c_d : forall n, mem n (descriptors t) = true -> n < next_index t }.

Lemma mem_get n (m : fmap Z D) : mem n m = true <-> get n m <> None.
Proof. unfold mem. destruct (get n m); split; congruence. Qed.
Lemma mem_get_f n (m : fmap Z D) : mem n m = false <-> get n m = None.
Proof. unfold mem. destruct (get n m); split; congruence. Qed.

Lemma inv_new : inv table_new.
Proof.
  constructor; cbn; try discriminate; try tauto; try lia.
  - constructor.
  - constructor.
  - unfold FD_MAX. lia.
Qed.
Lemma compact_new : compact (@table_new D).
Proof. constructor; cbn; [tauto|discriminate]. Qed.

(** ** The search for an unused number *)
Lemma skip_some fuel ds idx r : skip_used fuel ds idx = Some r ->
  match r with
  | Some j => idx <= j <= FD_MAX /\ @mem _ D _ j ds = false /\ forall k, idx <= k < j -> mem k ds = true
  | None => forall k, idx <= k <= FD_MAX -> mem k ds = true
  end.
Proof.
  revert idx. induction fuel as [|n IH]; intros idx; cbn [skip_used]; [discriminate|].
  unfold handle. destruct (Z.ltb_spec FD_MAX idx) as [G|G]; ob; [discriminate|].
  destruct (mem idx ds) eqn:M.
  - destruct (Z.leb_spec FD_MAX idx) as [L|L].
    + intros [= <-]. intros k K. replace k with idx by lia. exact M.
    + intros E. apply IH in E. destruct r as [j|].
      * destruct E as (A & B & C). split; [lia|]. split; [exact B|]. intros k K.
        destruct (Z.eq_dec k idx) as [->|N]; [exact M|]. apply C. lia.
      * intros k K. destruct (Z.eq_dec k idx) as [->|N]; [exact M|]. apply E. lia.
  - intros [= <-]. split; [lia|]. split; [exact M|]. intros k K. lia.
Qed.
Fixpoint zseq (a : Z) (n : nat) : list Z := match n with O => [] | S k => a :: zseq (a + 1) k end.
Lemma zseq_in a n x : In x (zseq a n) <-> a <= x < a + Z.of_nat n.
Proof.
  revert a. induction n as [|n IH]; intros a; cbn [zseq In]; [lia|]. rewrite IH. lia.
Qed.
Lemma zseq_nodup a n : NoDup (zseq a n).
Proof.
  revert a. induction n as [|n IH]; intros a; cbn [zseq]; constructor; [|apply IH]. rewrite zseq_in. lia.
Qed.
Lemma zseq_len a n : length (zseq a n) = n.
Proof. revert a. induction n as [|n IH]; intros a; cbn; [reflexivity|now rewrite IH]. Qed.
Lemma skip_none fuel ds idx : idx <= FD_MAX -> skip_used fuel ds idx = None ->
  forall k, idx <= k < idx + Z.of_nat fuel -> @mem _ D _ k ds = true.
Proof.
  revert idx. induction fuel as [|n IH]; intros idx L; cbn [skip_used]; [lia|].
  unfold handle. destruct (Z.ltb_spec FD_MAX idx) as [G|G]; ob; [lia|].
  destruct (mem idx ds) eqn:M; [|discriminate].
  destruct (Z.leb_spec FD_MAX idx) as [L2|L2]; [discriminate|].
  intros E k K. destruct (Z.eq_dec k idx) as [->|N]; [exact M|]. apply (IH (idx + 1)); [lia|exact E|lia].
Qed.
Lemma skip_total ds idx : NoDup (keys ds) -> idx <= FD_MAX ->
  exists r, @skip_used D (S (length ds)) ds idx = Some r.
Proof.
  intros ND L. destruct (skip_used (S (length ds)) ds idx) as [r|] eqn:E; [now exists r|exfalso].
  pose proof (skip_none _ _ _ L E) as H.
  assert (I : incl (zseq idx (S (length ds))) (keys ds)).
  { intros x X. apply zseq_in in X. apply mem_iff. apply H. exact X. }
  apply NoDup_incl_length in I; [|apply zseq_nodup]. rewrite zseq_len in I. unfold keys in I. rewrite map_length in I. lia.
Qed.

(** ** Trimming *)
Lemma trim_ok fuel av next : ssorted av -> (length av <= fuel)%nat -> exists av' next',
  trim fuel av next = Some (av', next') /\ ssorted av' /\ next' <= next /\
  (forall n, In n av' -> In n av) /\
  (forall n, In n av -> In n av' \/ next' <= n) /\
  ((forall n, In n av -> 0 <= n) -> 0 <= next -> 0 <= next') /\
  ((forall n, In n av -> n < next) -> forall n, In n av' -> n < next') /\
  (forall n, In n av -> ~ In n av' -> n < next) /\
  (forall n, next' <= n < next -> In n av).
Proof.
  revert av next. induction fuel as [|f IH]; intros av next S L.
  - destruct av; [|cbn in L; lia]. cbn. exists [], next. split; [reflexivity|]. split; [constructor|]. split; [lia|].
    split; [auto|]. split; [cbn; tauto|]. split; [auto|]. split; [cbn; tauto|]. split; [cbn; tauto|]. lia.
  - cbn [trim]. destruct (last_opt av) as [l|] eqn:E.
    + destruct (last_opt_some _ _ S E) as [Il Ml].
      destruct (Z.eqb_spec (l + 1) next) as [Q|Q].
      * destruct (IH (sdel l av) (next - 1)) as (av' & nx & R & S' & A & B & C & Dd & F & G & H).
        { now apply sdel_sorted. }
        { pose proof (sdel_len_in l av Il). lia. }
        exists av', nx. split; [exact R|]. split; [exact S'|]. split; [lia|].
        split. { intros n I. apply B in I. now apply sdel_in in I. }
        split. { intros n I. destruct (Z.eq_dec n l) as [->|N].
          - right. lia.
          - apply C. now apply sdel_in. }
        split. { intros P1 P2. apply Dd; [|specialize (P1 _ Il); lia]. intros n I. apply sdel_in in I. now apply P1. }
        split. { intros P1. apply F. intros n I. apply sdel_in in I as [I N]. specialize (Ml _ I). lia. }
        split. { intros n I N. destruct (Z.eq_dec n l) as [->|N2]; [lia|].
          assert (n < next - 1); [|lia]. apply G; [now apply sdel_in|exact N]. }
        intros n I. destruct (Z.eq_dec n l) as [->|N]; [exact Il|].
        assert (J : In n (sdel l av)) by (apply H; lia). now apply sdel_in in J.
      * exists av, next. split; [reflexivity|]. split; [exact S|]. split; [lia|]. split; [auto|]. split; [auto|].
        split; [auto|]. split; [auto|]. split; [intros; contradiction|lia].
    + exists av, next. split; [reflexivity|]. split; [exact S|]. split; [lia|]. split; [auto|]. split; [auto|].
      split; [auto|]. split; [auto|]. split; [intros; contradiction|lia].
Qed.

(** ** The operations *)
Lemma add_ok t d m : inv t -> number m -> exists t' r, add t d m = Some (t', r) /\ inv t' /\
  match r with
  | inl n => m <= n /\ number n /\ lk t n = None /\
      (forall k, lk t' k = if k =? n then Some d else lk t k) /\
      (lowest (lk t) m n \/ In n (available t)) /\
      (forall k, In k (available t') -> In k (available t)) /\
      (compact t -> (m = 0 \/ exists u, used (lk t) u /\ m <= u + 1) -> compact t' /\ lowest (lk t) m n)
  | inr d' => d' = d /\ t' = t /\ forall n, m <= n -> number n -> used (lk t) n
  end.
Proof.
  intros [Ids Iav Idr Iar Idj Inx Ilow] Hm. unfold add.
  destruct (first_from m (available t)) as [idx|] eqn:E.
  - destruct (first_from_some _ _ _ Iav E) as (I & M & A). pose proof (Iar _ I) as R. ob. cbn [descriptors available next_index].
    unfold handle. destruct (Z.ltb_spec FD_MAX idx) as [G|G]; [unfold number, FD_MAX in *; lia|]. ob.
    rewrite assert_true by (apply negb_true_iff, mem_get_f, Idj, I).
    do 2 eexists. split; [reflexivity|]. split; [|split; [exact M|split; [exact R|split; [now apply Idj|split; [|split; [|split]]]]]].
    + constructor; cbn [descriptors available next_index].
      * now apply bput_sorted.
      * now apply sdel_sorted.
      * intros n H. apply mem_get in H. rewrite get_bput in H. destruct (Z.eqb_spec n idx) as [En|N]; [subst n; exact R|]. now apply Idr, mem_get.
      * intros n H. apply sdel_in in H. now apply Iar.
      * intros n H. apply sdel_in in H as [H N]. rewrite get_bput_other by exact N. now apply Idj.
      * exact Inx.
      * intros n H. destruct (Z.eq_dec n idx) as [->|N].
        -- right. apply mem_get. rewrite get_bput_same. discriminate.
        -- destruct (Ilow n H) as [J|J]; [left; now apply sdel_in|right]. apply mem_get. rewrite get_bput_other by exact N. now apply mem_get.
    + intros k. unfold lk. cbn [descriptors]. apply get_bput.
    + right. exact I.
    + cbn [available]. intros k H. now apply sdel_in in H.
    + intros [Ca Cd] _. split.
      * constructor; cbn [descriptors available next_index].
        -- intros n H. apply sdel_in in H. now apply Ca.
        -- intros n H. apply mem_get in H. rewrite get_bput in H. destruct (Z.eqb_spec n idx) as [En|N]; [subst n; now apply Ca|]. now apply Cd, mem_get.
      * intros k K. unfold used, lk. apply mem_get. destruct (Ilow k) as [J|J]; [|exfalso|exact J].
        -- specialize (Ca _ I). unfold number in Hm. lia.
        -- specialize (A _ J). lia.
  - pose proof (first_from_none _ _ E) as NA.
    assert (LOW : forall k, m <= k < next_index t -> mem k (descriptors t) = true).
    { intros k K. destruct (Ilow k) as [J|J]; [unfold number in Hm; lia| |exact J]. apply NA in J. lia. }
    set (idx := Z.max (next_index t) m).
    destruct (Z.ltb_spec FD_MAX idx) as [G|G]; ob.
    + do 2 eexists. split; [reflexivity|]. split; [now constructor|]. split; [reflexivity|]. split; [reflexivity|].
      intros n Mn Rn. apply mem_get. apply LOW. unfold idx, number, FD_MAX in *. lia.
    + destruct (skip_total (descriptors t) idx) as [r Er]; [now apply bsorted_nodup|exact G|].
      rewrite Er. ob. pose proof (skip_some _ _ _ _ Er) as H. destruct r as [j|]; ob.
      * destruct H as (Hj & Hf & Hu). cbn [descriptors available next_index]. unfold handle.
        destruct (Z.ltb_spec FD_MAX j) as [G2|G2]; [lia|]. ob. rewrite assert_true by (now rewrite Hf).
        assert (LW : lowest (lk t) m j).
        { intros k K. unfold used, lk. apply mem_get. destruct (Z_lt_le_dec k (next_index t)) as [L|L]; [apply LOW; lia|]. apply Hu. lia. }
        assert (NJ : number j). { unfold number, FD_MAX in *. lia. }
        do 2 eexists. split; [reflexivity|].
        split; [|split; [lia|split; [exact NJ|split; [now apply mem_get_f|split; [|split; [now left|split; [now auto|]]]]]]].
        -- constructor; cbn [descriptors available next_index].
           ++ now apply bput_sorted.
           ++ exact Iav.
           ++ intros n I. apply mem_get in I. rewrite get_bput in I. destruct (Z.eqb_spec n j) as [En|N]; [subst n; exact NJ|]. now apply Idr, mem_get.
           ++ exact Iar.
           ++ intros n I. rewrite get_bput_other; [now apply Idj|]. apply NA in I. lia.
           ++ destruct (idx =? next_index t); lia.
           ++ intros n I. destruct (Z.eq_dec n j) as [->|N]; [right; apply mem_get; rewrite get_bput_same; discriminate|].
              assert (Q : In n (available t) \/ mem n (descriptors t) = true).
              { destruct (Z_lt_le_dec n (next_index t)) as [L|L]; [apply Ilow; lia|right; apply Hu].
                destruct (Z.eqb_spec idx (next_index t)); lia. }
              destruct Q as [Q|Q]; [now left|right]. apply mem_get. rewrite get_bput_other by exact N. now apply mem_get.
        -- intros k. unfold lk. cbn [descriptors]. apply get_bput.
        -- intros [Ca Cd] Hc. split; [|exact LW].
           assert (ML : m <= next_index t).
           { destruct Hc as [->|(u & U & Lu)]; [lia|]. apply mem_get, Cd in U. lia. }
           assert (EI : idx = next_index t) by lia.
           destruct (Z.eqb_spec idx (next_index t)) as [_|N]; [|contradiction].
           constructor; cbn [descriptors available next_index].
           ++ intros n I. apply Ca in I. lia.
           ++ intros n I. apply mem_get in I. rewrite get_bput in I. destruct (Z.eqb_spec n j) as [En|N]; [subst n; lia|]. apply mem_get, Cd in I. lia.
      * do 2 eexists. split; [reflexivity|]. split; [now constructor|]. split; [reflexivity|]. split; [reflexivity|].
        intros n Mn Rn. unfold used, lk. apply mem_get. destruct (Z_lt_le_dec n (next_index t)) as [L|L]; [apply LOW; lia|].
        apply H. unfold number, FD_MAX in *. lia.
Qed.

Lemma set_ok t k d : inv t -> number k -> inv (fst (set_at t k d)) /\
  (forall n, lk (fst (set_at t k d)) n = if n =? k then Some d else lk t n) /\
  (forall n, In n (available (fst (set_at t k d))) -> In n (available t)) /\
  (compact t -> (exists u, used (lk t) u /\ k <= u) -> compact (fst (set_at t k d))).
Proof.
  intros [Ids Iav Idr Iar Idj Inx Ilow] Hk. unfold set_at. cbn [fst snd].
  split; [|split; [|split]].
  - constructor; cbn [descriptors available next_index].
    + now apply bput_sorted.
    + now apply sdel_sorted.
    + intros n H. apply mem_get in H. rewrite get_bput in H. destruct (Z.eqb_spec n k) as [En|N]; [subst n; exact Hk|]. now apply Idr, mem_get.
    + intros n H. apply sdel_in in H. now apply Iar.
    + intros n H. apply sdel_in in H as [H N]. rewrite get_bput_other by exact N. now apply Idj.
    + exact Inx.
    + intros n H. destruct (Z.eq_dec n k) as [->|N].
      * right. apply mem_get. rewrite get_bput_same. discriminate.
      * destruct (Ilow n H) as [J|J]; [left; now apply sdel_in|right]. apply mem_get. rewrite get_bput_other by exact N. now apply mem_get.
  - intros n. unfold lk. cbn [descriptors]. apply get_bput.
  - cbn [available]. intros n H. now apply sdel_in in H.
  - intros [Ca Cd] (u & U & L). constructor; cbn [descriptors available next_index].
    + intros n H. apply sdel_in in H. now apply Ca.
    + intros n H. apply mem_get in H. rewrite get_bput in H. destruct (Z.eqb_spec n k) as [En|N]; [subst n|].
      * apply mem_get, Cd in U. lia.
      * now apply Cd, mem_get.
Qed.

Lemma dereg_ok t k : inv t -> number k -> exists t', deregister t k = Some (t', lk t k) /\ inv t' /\
  (forall n, lk t' n = if n =? k then None else lk t n) /\
  (descriptors t' = del k (descriptors t)) /\
  (forall n, In n (available t') -> In n (available t) \/ n = k) /\
  (compact t -> used (lk t) k -> compact t').
Proof.
  intros [Ids Iav Idr Iar Idj Inx Ilow] Hk. unfold deregister, trim_tail. cbn [descriptors available next_index].
  destruct (trim_ok (length (sins k (available t))) (sins k (available t)) (next_index t)) as (av' & nx & R & S' & A & B & C & Dd & F & G & H).
  { now apply sins_sorted. } { lia. }
  rewrite R. ob. cbn [fst snd].
  eexists. split; [reflexivity|]. split; [|split; [|split; [|split]]].
  - constructor; cbn [descriptors available next_index].
    + now apply del_sorted.
    + exact S'.
    + intros n I. apply Idr. apply mem_get in I. apply mem_get. intros Q. apply I. rewrite get_del. now destruct (eqb n k).
    + intros n I. apply B, sins_in in I as [->|I]; [exact Hk|now apply Iar].
    + intros n I. apply B, sins_in in I as [->|I]; [apply get_del_same|]. rewrite get_del. destruct (eqb n k); [reflexivity|now apply Idj].
    + split; [|lia]. apply Dd; [|lia]. intros n I. apply sins_in in I as [->|I]; [apply Hk|now apply Iar].
    + intros n I. destruct (Z.eq_dec n k) as [->|N].
      * left. destruct (C k) as [J|J]; [now apply sins_in; left|exact J|lia].
      * destruct (Ilow n) as [J|J]; [lia| |].
        -- left. destruct (C n) as [J'|J']; [now apply sins_in; right|exact J'|lia].
        -- right. apply mem_get. rewrite get_del_other by exact N. now apply mem_get.
  - intros n. unfold lk. cbn [descriptors]. rewrite get_del. reflexivity.
  - reflexivity.
  - cbn [available]. intros n I. apply B, sins_in in I as [->|I]; auto.
  - intros [Ca Cd] U. apply mem_get, Cd in U. constructor; cbn [descriptors available next_index].
    + intros n I. apply F; [|exact I]. intros j J. apply sins_in in J as [->|J]; [lia|now apply Ca].
    + intros n I. assert (Un : n < next_index t).
      { apply Cd. apply mem_get in I. apply mem_get. intros Q. apply I. rewrite get_del. now destruct (eqb n k). }
      destruct (Z_lt_le_dec n nx) as [L|L]; [exact L|exfalso]. apply mem_get in I.
      assert (J : In n (sins k (available t))) by (apply H; lia). apply sins_in in J as [->|J].
      * now rewrite get_del_same in I.
      * apply Idj in J. rewrite get_del in I. destruct (eqb n k); congruence.
Qed.

Lemma dereg_list_ok l t : inv t -> NoDup l -> (forall n, In n l -> used (lk t) n) ->
  exists t' ds, deregister_list t l = Some (t', ds) /\ inv t' /\ map (lk t) l = map Some ds /\
  (forall n, lk t' n = if existsb (Z.eqb n) l then None else lk t n) /\
  (forall n, In n (available t') -> In n (available t) \/ In n l) /\
  (compact t -> compact t').
Proof.
  revert t. induction l as [|k l IH]; intros t Iv ND U; cbn [deregister_list].
  - exists t, []. split; [reflexivity|]. split; [exact Iv|]. split; [reflexivity|]. split; [reflexivity|]. split; [auto|auto].
  - inversion ND as [|? ? Nk ND']; subst.
    assert (Uk : used (lk t) k) by (apply U; now left).
    assert (Rk : number k) by (apply (i_dr t Iv), mem_get, Uk).
    destruct (dereg_ok t k Iv Rk) as (t1 & E & Iv1 & L1 & _ & A1 & C1). rewrite E. ob. cbn [fst snd].
    destruct (lk t k) as [d|] eqn:Ed; [|contradiction]. ob.
    destruct (IH t1 Iv1 ND') as (t2 & ds & E2 & Iv2 & M2 & L2 & A2 & C2).
    { intros n I. unfold used. rewrite L1. destruct (Z.eqb_spec n k) as [En|N]; [subst n; contradiction|]. apply U. now right. }
    rewrite E2. ob. cbn [fst snd]. exists t2, (d :: ds). split; [reflexivity|]. split; [exact Iv2|]. split.
    { cbn [map]. rewrite Ed. f_equal. rewrite <- M2. apply map_ext_in. intros n I. rewrite L1.
      destruct (Z.eqb_spec n k) as [En|N]; [subst n; contradiction|reflexivity]. }
    split. { intros n. rewrite L2, L1. cbn [existsb]. destruct (n =? k); cbn; [now destruct (existsb (Z.eqb n) l)|reflexivity]. }
    split. { intros n I. apply A2 in I as [I|I]; [apply A1 in I as [I| ->]|]; cbn; auto. }
    intros C. apply C2, C1; [exact C|]. congruence.
Qed.

Lemma range_ok t a b : inv t -> exists t' ds, remove_range t a b = Some (t', ds) /\ inv t' /\
  listing (lk t) (fun n => a <= n <= b) ds /\
  (forall n, lk t' n = if (a <=? n) && (n <=? b) then None else lk t n) /\
  (forall n, In n (available t') -> In n (available t) \/ a <= n <= b) /\
  (compact t -> compact t').
Proof.
  intros Iv. unfold remove_range. set (l := filter _ _).
  assert (IL : forall n, In n l <-> a <= n <= b /\ used (lk t) n).
  { intros n. unfold l. rewrite filter_In, andb_true_iff, !Z.leb_le, <- mem_iff, mem_get. unfold used, lk. tauto. }
  destruct (dereg_list_ok l t) as (t' & ds & E & Iv' & M & L & A & C).
  - exact Iv.
  - apply NoDup_filter, bsorted_nodup, Iv.
  - intros n I. now apply IL.
  - exists t', ds. split; [exact E|]. split; [exact Iv'|]. split.
    { exists l. split; [apply filter_sorted, Iv|]. split; [exact IL|exact M]. }
    split.
    { intros n. rewrite L. destruct (existsb (Z.eqb n) l) eqn:X.
      - apply existsb_exists in X as (y & Y & Q). apply Z.eqb_eq in Q. subst y. apply IL in Y as [Y _].
        replace (a <=? n) with true by lia. replace (n <=? b) with true by lia. reflexivity.
      - destruct ((a <=? n) && (n <=? b)) eqn:Q; [|reflexivity]. apply andb_true_iff in Q. rewrite !Z.leb_le in Q.
        destruct (lk t n) as [d|] eqn:Ed; [exfalso|reflexivity].
        assert (Y : In n l) by (apply IL; split; [exact Q|unfold used; congruence]).
        assert (X' : existsb (Z.eqb n) l = true) by (apply existsb_exists; exists n; split; [exact Y|apply Z.eqb_refl]). congruence. }
    split. { intros n I. apply A in I as [I|I]; [auto|right]. now apply IL in I. }
    exact C.
Qed.

Definition names_closed (o : dop D) (n : Z) : Prop :=
  match o with Close k => n = k | CloseRange a b => a <= n <= b | _ => False end.

Lemma get_map_snd (m : fmap Z D) : NoDup (keys m) -> map (fun n => get n m) (keys m) = map Some (map snd m).
Proof.
  intros ND. unfold keys in *. rewrite !map_map. apply map_ext_in. intros [k v] I. cbn. now apply in_get.
Qed.

Lemma dstep_ok t o : inv t -> in_range o -> exists t' x, dstep t o = Some (t', x) /\ inv t' /\
  right_result (lk t) o x /\ (forall n, lk t' n = effect (lk t) o x n) /\
  (forall n, In n (available t') -> In n (available t) \/ names_closed o n) /\
  (match o, x with Open _ m, Opened n => lowest (lk t) m n \/ In n (available t) | _, _ => True end) /\
  (compact t -> compact_op (lk t) o x -> compact t' /\ lowest_result (lk t) o x).
Proof.
  intros Iv R. destruct o as [d m|d k|k|a b|]; cbn [dstep in_range] in *.
  - destruct (add_ok t d m Iv R) as (t' & r & E & Iv' & H). rewrite E. ob. cbn [fst snd].
    destruct r as [n|d'].
    + destruct H as (H1 & H2 & H3 & H4 & H5 & H6 & H7). exists t', (Opened n). split; [reflexivity|]. split; [exact Iv'|].
      split. { cbn. split; [exact H1|]. split; [exact H2|]. unfold used. auto. }
      split; [exact H4|]. split; [auto|]. split; [exact H5|]. exact H7.
    + destruct H as (-> & -> & H). exists t, (Full d). split; [reflexivity|]. split; [exact Iv'|].
      split; [split; [reflexivity|exact H]|]. split; [reflexivity|]. split; [auto|]. split; [exact Logic.I|]. intros C _. split; [exact C|exact Logic.I].
  - destruct (set_ok t k d Iv R) as (H1 & H2 & H3 & H4).
    do 2 eexists. split; [reflexivity|]. split; [exact H1|]. split; [reflexivity|]. split; [exact H2|]. split; [auto|]. split; [exact Logic.I|].
    intros C Q. split; [auto|exact Logic.I].
  - destruct (dereg_ok t k Iv R) as (t' & E & H1 & H2 & _ & H3 & H4). rewrite E. ob. cbn [fst snd].
    do 2 eexists. split; [reflexivity|]. split; [exact H1|]. split; [reflexivity|]. split; [exact H2|].
    split; [exact H3|]. split; [exact Logic.I|]. intros C Q. split; [auto|exact Logic.I].
  - destruct (range_ok t a b Iv) as (t' & ds & E & H1 & H2 & H3 & H4 & H5). rewrite E. ob. cbn [fst snd].
    do 2 eexists. split; [reflexivity|]. split; [exact H1|]. split; [exact H2|]. split; [exact H3|].
    split; [exact H4|]. split; [exact Logic.I|]. intros C Q. split; [auto|exact Logic.I].
  - unfold remove_all. cbn [fst snd]. do 2 eexists. split; [reflexivity|]. split; [exact inv_new|].
    split. { exists (keys (descriptors t)). split; [apply Iv|]. split.
      - intros n. rewrite <- mem_iff, mem_get. unfold used, lk. tauto.
      - apply get_map_snd, bsorted_nodup, Iv. }
    split; [reflexivity|]. split; [cbn; tauto|]. split; [exact Logic.I|]. intros _ _. split; [exact compact_new|exact Logic.I].
Qed.

(** The contents may be replaced by pointwise equal ones. *)
Lemma effect_ext T T' o x : (forall n, T n = T' n) -> forall n, effect T o x n = effect T' o x n.
Proof. intros E n. unfold effect. destruct o, x; rewrite ?E; reflexivity. Qed.
Lemma used_ext T T' n : (forall n, T n = T' n) -> used T n <-> used T' n.
Proof. intros E. unfold used. now rewrite E. Qed.
Lemma listing_ext T T' P l : (forall n, T n = T' n) -> listing T P l -> listing T' P l.
Proof.
  intros E (ns & S & A & B). exists ns. split; [exact S|]. split.
  - intros n. rewrite A. now rewrite (used_ext T T' n E).
  - rewrite <- B. apply map_ext. intros. symmetry. apply E.
Qed.
Lemma right_ext T T' o x : (forall n, T n = T' n) -> right_result T o x -> right_result T' o x.
Proof.
  intros E. destruct o, x; cbn; try tauto; rewrite ?E; auto using (listing_ext T T').
  - intros (A & B & C). split; [exact A|]. split; [exact B|]. now rewrite <- (used_ext T T').
  - intros (A & B). split; [exact A|]. intros n L R. rewrite <- (used_ext T T' n E). now apply B.
Qed.
Lemma lowest_ext T T' o x : (forall n, T n = T' n) -> lowest_result T o x -> lowest_result T' o x.
Proof.
  intros E. destruct o, x; cbn; try tauto. intros H k K. rewrite <- (used_ext T T' k E). now apply H.
Qed.
Lemma compact_ext T T' o x : (forall n, T n = T' n) -> compact_op T o x -> compact_op T' o x.
Proof.
  intros E. destruct o; cbn; try tauto.
  - intros [H|(u & U & L)]; [now left|right]. exists u. now rewrite <- (used_ext T T' u E).
  - intros (u & U & L). exists u. now rewrite <- (used_ext T T' u E).
  - now rewrite (used_ext T T' fd E).
Qed.

Lemma drun_ok l t T : inv t -> Forall in_range l -> (forall n, lk t n = T n) -> exists t' xs,
  drun t l = Some (t', xs) /\ inv t' /\ all_steps right_result T l xs /\
  (forall n, lk t' n = after T l xs n) /\
  (forall n, In n (available t') -> In n (available t) \/ exists o, In o l /\ names_closed o n) /\
  (compact t -> all_steps compact_op T l xs -> compact t' /\ all_steps lowest_result T l xs).
Proof.
  revert t T. induction l as [|o l IH]; intros t T Iv R ET; cbn [drun].
  - exists t, []. split; [reflexivity|]. split; [exact Iv|]. split; [exact Logic.I|]. split; [exact ET|]. split; [auto|].
    intros C _. split; [exact C|exact Logic.I].
  - inversion R as [|? ? Ro Rl]; subst.
    destruct (dstep_ok t o Iv Ro) as (t1 & x & E & Iv1 & H1 & H2 & H3 & _ & H5). rewrite E. ob. cbn [fst snd].
    destruct (IH t1 (effect T o x) Iv1 Rl) as (t2 & xs & E2 & Iv2 & K1 & K2 & K3 & K4).
    { intros n. rewrite H2. now apply effect_ext. }
    rewrite E2. ob. cbn [fst snd]. exists t2, (x :: xs). split; [reflexivity|]. split; [exact Iv2|].
    split; [cbn; split; [eapply right_ext; eauto|exact K1]|]. split; [exact K2|].
    split. { intros n I. apply K3 in I as [I|(o' & I & N)]; [apply H3 in I as [I|I]|]; [auto| |].
      - right. exists o. cbn; auto. - right. exists o'. cbn; auto. }
    cbn [all_steps]. intros C [Q1 Q2]. destruct H5 as [C1 W1]; [exact C|eapply compact_ext; [|exact Q1]; intros; symmetry; apply ET|].
    destruct (K4 C1 Q2) as [C2 W2]. split; [exact C2|]. split; [eapply lowest_ext; eauto|exact W2].
Qed.

Lemma drun_app l1 l2 t : drun t (l1 ++ l2) =
  do x <- @drun D t l1; do y <- drun (fst x) l2; Some (fst y, snd x ++ snd y).
Proof.
  revert t. induction l1 as [|o l1 IH]; intros t; cbn [drun app].
  - ob. cbn [fst snd app]. destruct (drun t l2) as [[a b]|]; ob; reflexivity.
  - destruct (dstep t o) as [[t1 x]|]; ob; [|reflexivity]. cbn [fst snd]. rewrite IH.
    destruct (drun t1 l1) as [[t2 xs]|]; ob; [|reflexivity]. cbn [fst snd].
    destruct (drun t2 l2) as [[t3 ys]|]; ob; reflexivity.
Qed.

Lemma table_main (l : list (dop D)) : Forall in_range l -> exists t xs,
  drun table_new l = Some (t, xs) /\ all_steps right_result nothing l xs /\
  forall n, get n (descriptors t) = after nothing l xs n.
Proof.
  intros R. destruct (drun_ok l table_new nothing inv_new R) as (t & xs & E & _ & A & B & _); [reflexivity|].
  exists t, xs. split; [exact E|]. split; [exact A|exact B].
Qed.

Lemma lowest_main (l : list (dop D)) t xs : Forall in_range l -> drun table_new l = Some (t, xs) ->
  all_steps compact_op nothing l xs -> all_steps lowest_result nothing l xs.
Proof.
  intros R E C. destruct (drun_ok l table_new nothing inv_new R) as (t' & xs' & E' & _ & _ & _ & _ & H); [reflexivity|].
  rewrite E in E'. injection E' as <- <-. now apply H; [exact compact_new|].
Qed.

Lemma reuse_main (l : list (dop D)) d m t xs n : Forall in_range l -> number m ->
  drun table_new (l ++ [Open d m]) = Some (t, xs ++ [Opened n]) ->
  lowest (after nothing l xs) m n \/ ever_closed l n.
Proof.
  intros R Rm E. rewrite drun_app in E.
  destruct (drun_ok l table_new nothing inv_new R) as (t' & xs' & E' & Iv & _ & A & B & _); [reflexivity|].
  rewrite E' in E. ob_in E. cbn [fst snd drun] in E.
  destruct (dstep_ok t' (Open d m) Iv Rm) as (t2 & x & E2 & _ & _ & _ & _ & H & _).
  rewrite E2 in E. ob_in E. cbn [fst snd] in E. injection E as E3 E4. subst t.
  apply app_inj_tail in E4 as [E4 E5]. subst xs' x. destruct H as [H|H].
  - left. intros k K. rewrite <- (used_ext _ _ k A). now apply H.
  - right. apply B in H as [H|(o & I & N)]; [destruct H|]. destruct o; cbn in N; try contradiction.
    + left. now subst.
    + right. exists a, b. auto.
Qed.
End P.
