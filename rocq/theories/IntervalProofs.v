From Verif Require Import Base IntervalModel IntervalSpec.

Section P.
Context {V : Type}.
Notation ent := (interval * V)%type.
Definition st (p : ent) : Z := fst (fst p).
Definition en (p : ent) : Z := snd (fst p).
Definition of_list (l : list ent) : imap V := mkIM (map st l) (map en l) (map snd l).
Definition WF (l : list ent) : Prop := intervals_ok l.

Lemma wf_nil : WF [].
Proof. split; constructor. Qed.
Lemma wf_cons p l : WF (p :: l) <-> st p < en p /\ WF l /\ Forall (fun q => en p <= st q) l.
Proof.
  unfold WF, intervals_ok. split.
  - intros [A B]. inversion A; subst. inversion B; subst. auto.
  - intros (A & [B C] & D). split; constructor; auto.
Qed.
Lemma wf_app a b : WF (a ++ b) <-> WF a /\ WF b /\ (forall p q, In p a -> In q b -> en p <= st q).
Proof.
  induction a as [|p a IH]; cbn [app].
  - split; [intros H; split; [apply wf_nil|]; split; [exact H|intros ? ? []]|tauto].
  - rewrite !wf_cons, IH, Forall_app, !Forall_forall. split.
    + intros (A & (B & C & D) & E & F). split; [auto|]. split; [exact C|]. intros x y [<-|I] J; auto.
    + intros ((A & B & E) & C & D). split; [exact A|]. split; [split; [exact B|split; [exact C|]]; intros x y I J; apply D; cbn; auto|].
      split; [exact E|]. intros y J. apply D; cbn; auto.
Qed.
Lemma wf_pos l p : WF l -> In p l -> st p < en p.
Proof. intros [A _] I. rewrite Forall_forall in A. apply (A _ I). Qed.

(** * Lists *)
Lemma items_of_list l i : items_from (of_list l) i = skipn i l.
Proof.
  unfold items_from, of_list. cbn [im_starts im_ends im_vals]. f_equal.
  induction l as [|[[a b] v] l IH]; [reflexivity|]. cbn. f_equal. exact IH.
Qed.
Lemma vec_splice_app {A} (X Y Z0 ins : list A) :
  vec_splice (X ++ Y ++ Z0) (length X) (length X + length Y) ins = Some (X ++ ins ++ Z0, Y).
Proof.
  unfold vec_splice. rewrite assert_true.
  - rewrite firstn_app, firstn_all, Nat.sub_diag, firstn_O, app_nil_r.
    rewrite skipn_app, skipn_all2 by lia. replace (length X + length Y - length X)%nat with (length Y) by lia.
    rewrite skipn_app, skipn_all, Nat.sub_diag. rewrite skipn_app, skipn_all, Nat.sub_diag. cbn.
    rewrite firstn_app, firstn_all, Nat.sub_diag, firstn_O, app_nil_r. reflexivity.
  - rewrite !app_length. apply andb_true_intro. split; apply Nat.leb_le; lia.
Qed.
Lemma nth_error_mid {A} (X Y : list A) a : nth_error (X ++ a :: Y) (length X) = Some a.
Proof. rewrite nth_error_app2, Nat.sub_diag by lia. reflexivity. Qed.
Lemma set_nth_mid {A} (X Y : list A) a b : set_nth (X ++ a :: Y) (length X) b = X ++ b :: Y.
Proof.
  unfold set_nth. rewrite firstn_app, firstn_all, Nat.sub_diag, firstn_O, app_nil_r.
  rewrite skipn_app, skipn_all2 by lia. replace (S (length X) - length X)%nat with 1%nat by lia. reflexivity.
Qed.
Lemma nth_mid {A} (X Y : list A) a n : n = length X -> nth_error (X ++ a :: Y) n = Some a.
Proof. intros ->. apply nth_error_mid. Qed.
Lemma set_mid {A} (X Y : list A) a b n : n = length X -> set_nth (X ++ a :: Y) n b = X ++ b :: Y.
Proof. intros ->. apply set_nth_mid. Qed.
Lemma nth_error_end {A} (X : list A) : nth_error X (length X) = None.
Proof. apply nth_error_None. lia. Qed.
Lemma filter_count {A} (f : A -> bool) X Y : (forall a, In a X -> f a = true) -> (forall a, In a Y -> f a = false) ->
  length (filter f (X ++ Y)) = length X.
Proof.
  intros A1 A2. induction X as [|x X IH]; cbn.
  - induction Y as [|y Y IH]; [reflexivity|]. cbn. rewrite A2 by (cbn; auto). apply IH. intros a I. apply A2. cbn. auto.
  - rewrite A1 by (cbn; auto). cbn. f_equal. apply IH. intros a I. apply A1. cbn. auto.
Qed.

(** * Binary search *)
Lemma bs_lt X Y x : (forall a, In a X -> a < x) -> (forall a, In a Y -> x <= a) ->
  match binary_search (X ++ Y) x with inl i => i | inr i => i end = length X.
Proof.
  intros A B. unfold binary_search. rewrite filter_count.
  - destruct (nth_error _ _); [destruct (_ =? _)|]; reflexivity.
  - intros a I. specialize (A _ I). lia.
  - intros a I. specialize (B _ I). lia.
Qed.
Lemma bs_le X Y x : StronglySorted Z.lt X -> (forall a, In a X -> a <= x) -> (forall a, In a Y -> x < a) ->
  match binary_search (X ++ Y) x with inl i => S i | inr i => i end = length X.
Proof.
  intros S A B. destruct X as [|y X _] using rev_ind.
  - cbn [app]. unfold binary_search.
    assert (E : length (filter (fun y => y <? x) Y) = 0%nat).
    { apply (filter_count (fun y => y <? x) [] Y). - intros a []. - intros a I. specialize (B _ I). lia. }
    rewrite E. destruct Y as [|z Y]; [reflexivity|]. cbn [nth_error].
    destruct (Z.eqb_spec z x); [|reflexivity]. specialize (B z (or_introl eq_refl)). lia.
  - assert (L : forall a, In a X -> a < y).
    { clear - S. induction X as [|b X IH]; intros a I; [destruct I|]. cbn in S. inversion S as [|? ? S1 F]; subst.
      destruct I as [<-|I]; [|auto]. rewrite Forall_forall in F. apply F, in_app_iff. right. cbn. auto. }
    pose proof (A y ltac:(apply in_app_iff; cbn; auto)) as Ay.
    unfold binary_search. destruct (Z.eq_dec y x) as [->|N].
    + rewrite <- app_assoc. cbn [app]. rewrite filter_count.
      * rewrite nth_error_mid, Z.eqb_refl, app_length. cbn. lia.
      * intros a I. specialize (L _ I). lia.
      * intros a [<-|I]; [lia|]. specialize (B _ I). lia.
    + rewrite filter_count.
      * destruct Y as [|z Y].
        -- rewrite app_nil_r, nth_error_end. reflexivity.
        -- rewrite nth_error_mid. destruct (Z.eqb_spec z x); [|reflexivity]. specialize (B z (or_introl eq_refl)). lia.
      * intros a I. apply in_app_iff in I as [I|[<-|[]]]; [specialize (L _ I)|]; lia.
      * intros a I. specialize (B _ I). lia.
Qed.

Lemma map_ends_sorted l : WF l -> StronglySorted Z.lt (map en l).
Proof.
  induction l as [|p l IH]; intros W; cbn; [constructor|]. apply wf_cons in W as (A & W & F). constructor; [auto|].
  apply Forall_forall. intros e I. apply in_map_iff in I as (q & <- & I). rewrite Forall_forall in F. specialize (F _ I).
  pose proof (wf_pos _ _ W I). lia.
Qed.

Lemma split_st l x : WF l -> exists A D, l = A ++ D /\ (forall p, In p A -> st p < x) /\ (forall p, In p D -> x <= st p).
Proof.
  induction l as [|p l IH]; intros W.
  - exists [], []. cbn. repeat split; intros ? [].
  - apply wf_cons in W as (A & W & F). destruct (Z_lt_le_dec (st p) x) as [L|L].
    + destruct (IH W) as (X & D & -> & HX & HD). exists (p :: X), D. split; [reflexivity|]. split; [|exact HD].
      intros q [<-|I]; auto.
    + exists [], (p :: l). split; [reflexivity|]. split; [intros ? []|]. intros q [<-|I]; [exact L|].
      rewrite Forall_forall in F. specialize (F _ I). lia.
Qed.
Lemma split_en l x : WF l -> exists A D, l = A ++ D /\ (forall p, In p A -> en p <= x) /\ (forall p, In p D -> x < en p).
Proof.
  induction l as [|p l IH]; intros W.
  - exists [], []. cbn. repeat split; intros ? [].
  - apply wf_cons in W as (A & W & F). destruct (Z_le_gt_dec (en p) x) as [L|L].
    + destruct (IH W) as (X & D & -> & HX & HD). exists (p :: X), D. split; [reflexivity|]. split; [|exact HD].
      intros q [<-|I]; auto.
    + exists [], (p :: l). split; [reflexivity|]. split; [intros ? []|]. intros q [<-|I]; [lia|].
      rewrite Forall_forall in F. specialize (F _ I). pose proof (wf_pos _ _ W I). lia.
Qed.

(** * Splicing *)
Section Splice.
Variables s t : Z.
Hypothesis ST : s < t.
Definition left_part (p : ent) : list ent :=
  if st p <? Z.min (en p) s then [((st p, Z.min (en p) s), snd p)] else [].
Definition right_part (p : ent) : list ent :=
  if Z.max (st p) t <? en p then [((Z.max (st p) t, en p), snd p)] else [].

Lemma ent_eta (p : ent) : ((st p, en p), snd p) = p.
Proof. destruct p as [[a b] v]. reflexivity. Qed.

Lemma parts_before l : WF l -> (forall p, In p l -> en p <= s) ->
  flat_map left_part l = l /\ flat_map right_part l = [] /\ flat_map (report s t) l = [].
Proof.
  induction l as [|p l IH]; intros W H; [auto|]. apply wf_cons in W as (A & W & F).
  destruct (IH W) as (E1 & E2 & E3); [intros q I; apply H; cbn; auto|].
  pose proof (H p (or_introl eq_refl)) as L. cbn [flat_map]. rewrite E1, E2, E3. split; [|split].
  - unfold left_part. replace (Z.min (en p) s) with (en p) by lia. destruct (Z.ltb_spec (st p) (en p)); [|lia].
    rewrite ent_eta. reflexivity.
  - unfold right_part. destruct (Z.ltb_spec (Z.max (st p) t) (en p)); [lia|reflexivity].
  - destruct p as [[b e] v]. unfold report, en, st in *. cbn in *. destruct (Z.leb_spec e s); [reflexivity|lia].
Qed.
Lemma parts_after l : WF l -> (forall p, In p l -> t <= st p) ->
  flat_map left_part l = [] /\ flat_map right_part l = l /\ flat_map (report s t) l = [].
Proof.
  induction l as [|p l IH]; intros W H; [auto|]. apply wf_cons in W as (A & W & F).
  destruct (IH W) as (E1 & E2 & E3); [intros q I; apply H; cbn; auto|].
  pose proof (H p (or_introl eq_refl)) as L. cbn [flat_map]. rewrite E1, E2, E3. split; [|split].
  - unfold left_part. destruct (Z.ltb_spec (st p) (Z.min (en p) s)); [lia|reflexivity].
  - unfold right_part. replace (Z.max (st p) t) with (st p) by lia. destruct (Z.ltb_spec (st p) (en p)); [|lia].
    rewrite ent_eta. reflexivity.
  - destruct p as [[b e] v]. unfold report, en, st in *. cbn in *. destruct (Z.leb_spec t b); [now rewrite orb_true_r|lia].
Qed.
Lemma parts_inside l : WF l -> (forall p, In p l -> s <= st p /\ en p <= t) ->
  flat_map left_part l = [] /\ flat_map right_part l = [] /\
  flat_map (report s t) l = map (fun '(i, v) => Removed i v) l.
Proof.
  induction l as [|p l IH]; intros W H; [auto|]. apply wf_cons in W as (A & W & F).
  destruct (IH W) as (E1 & E2 & E3); [intros q I; apply H; cbn; auto|].
  pose proof (H p (or_introl eq_refl)) as L. cbn [flat_map map]. rewrite E1, E2, E3. split; [|split].
  - unfold left_part. destruct (Z.ltb_spec (st p) (Z.min (en p) s)); [lia|reflexivity].
  - unfold right_part. destruct (Z.ltb_spec (Z.max (st p) t) (en p)); [lia|reflexivity].
  - destruct p as [[b e] v]. unfold report, en, st in *. cbn in *. destruct (Z.leb_spec e s); [lia|].
    destruct (Z.leb_spec t b); [lia|]. cbn. unfold remainder.
    destruct (Z.ltb_spec b (Z.min e s)); [lia|]. destruct (Z.ltb_spec (Z.max b t) e); [lia|]. reflexivity.
Qed.

(** First stage: the interval before the splice point. *)
Definition stage1 (l : list ent) (i : nat) (si ei : list Z) (vi : list V) :=
    match i with
    | 0%nat => Some (map en l, si, ei, vi, @nil (mutation V))
    | S idx =>
        do oend <- nth_error (map en l) idx;
        if s <? oend then
          do ostart <- nth_error (map st l) idx;
          if oend <=? t then
            Some (set_nth (map en l) idx s, si, ei, vi, [ModifiedEnd (ostart, oend) s])
          else
            do v <- nth_error (map snd l) idx;
            Some (set_nth (map en l) idx s, si ++ [t], ei ++ [oend], vi ++ [v],
                  [Split (ostart, oend) (ostart, s) (t, oend)])
        else Some (map en l, si, ei, vi, [])
    end.

Lemma stage1_ok A D si ei vi : WF (A ++ D) -> (forall p, In p A -> st p < s) -> (forall p, In p D -> s <= st p) ->
  exists A1 X m1,
    stage1 (A ++ D) (length A) si ei vi =
      Some (map en (A1 ++ D), si ++ map st X, ei ++ map en X, vi ++ map snd X, m1) /\
    A1 = flat_map left_part A /\ X = flat_map right_part A /\ m1 = flat_map (report s t) A /\
    map st A1 = map st A /\ map snd A1 = map snd A /\
    WF A1 /\ (forall p, In p A1 -> en p <= s) /\ (X <> [] -> forall p, In p D -> t < st p).
Proof.
  intros W LA LD. destruct A as [|a A _] using rev_ind.
  { exists [], [], []. cbn. rewrite !app_nil_r. repeat split; auto; try constructor; try (intros ? []). congruence. }
  apply wf_app in W as (WA & WD & WAD). apply wf_app in WA as (WA' & Wa & WAa).
  assert (LA' : forall p, In p A -> en p <= s).
  { intros p I. pose proof (WAa p a I (or_introl eq_refl)). pose proof (LA a ltac:(apply in_app_iff; cbn; auto)). lia. }
  destruct (parts_before A WA' LA') as (E1 & E2 & E3).
  pose proof (LA a ltac:(apply in_app_iff; cbn; auto)) as La. apply wf_cons in Wa as (Pa & _ & _).
  rewrite app_length. cbn [length]. replace (length A + 1)%nat with (S (length A)) by lia. cbn [stage1].
  rewrite !flat_map_app, E1, E2, E3. cbn [flat_map app]. rewrite !app_nil_r.
  rewrite <- app_assoc. cbn [app]. rewrite !map_app. cbn [map].
  rewrite !(nth_mid (map en A)) by now rewrite map_length. ob.
  assert (WL : forall e', e' <= en a -> st a < e' -> WF (A ++ [((st a, e'), snd a)])).
  { intros e' L1 L2. apply wf_app. split; [exact WA'|]. split.
    - apply wf_cons. unfold st at 1, en at 1. cbn. split; [lia|]. split; [apply wf_nil|constructor].
    - intros p q I [<-|[]]. unfold st. cbn. apply (WAa p a I (or_introl eq_refl)). }
  destruct (Z.ltb_spec s (en a)) as [L|L].
  - rewrite !(nth_mid (map st A)) by now rewrite map_length. ob.
    destruct (Z.leb_spec (en a) t) as [L2|L2].
    + exists (A ++ [((st a, s), snd a)]), [], [ModifiedEnd (st a, en a) s]. split; [|split; [|split; [|split; [|split; [|split; [|split; [|split]]]]]]].
      * rewrite (set_mid (map en A)) by now rewrite map_length. cbn. rewrite !app_nil_r, !map_app. cbn. rewrite <- app_assoc. reflexivity.
      * f_equal. unfold left_part. replace (Z.min (en a) s) with s by lia. destruct (Z.ltb_spec (st a) s); [reflexivity|lia].
      * unfold right_part. destruct (Z.ltb_spec (Z.max (st a) t) (en a)); [lia|reflexivity].
      * destruct a as [[b e] v]. unfold report, en, st in *. cbn in *. destruct (Z.leb_spec e s); [lia|].
        destruct (Z.leb_spec t b); [lia|]. cbn. unfold remainder. replace (Z.min e s) with s by lia.
        destruct (Z.ltb_spec b s); [|lia]. destruct (Z.ltb_spec (Z.max b t) e); [lia|]. cbn. rewrite Z.eqb_refl. reflexivity.
      * rewrite !map_app. reflexivity.
      * rewrite !map_app. reflexivity.
      * apply WL; lia.
      * intros p I. apply in_app_iff in I as [I|[<-|[]]]; [auto|]. unfold en. cbn. lia.
      * congruence.
    + rewrite !(nth_mid (map snd A)) by now rewrite map_length. ob.
      exists (A ++ [((st a, s), snd a)]), [((t, en a), snd a)], [Split (st a, en a) (st a, s) (t, en a)].
      split; [|split; [|split; [|split; [|split; [|split; [|split; [|split]]]]]]].
      * rewrite (set_mid (map en A)) by now rewrite map_length. cbn. rewrite !map_app. cbn. rewrite <- app_assoc. reflexivity.
      * f_equal. unfold left_part. replace (Z.min (en a) s) with s by lia. destruct (Z.ltb_spec (st a) s); [reflexivity|lia].
      * unfold right_part. replace (Z.max (st a) t) with t by lia. destruct (Z.ltb_spec t (en a)); [reflexivity|lia].
      * destruct a as [[b e] v]. unfold report, en, st in *. cbn in *. destruct (Z.leb_spec e s); [lia|].
        destruct (Z.leb_spec t b); [lia|]. cbn. unfold remainder. replace (Z.min e s) with s by lia.
        replace (Z.max b t) with t by lia.
        destruct (Z.ltb_spec b s); [|lia]. destruct (Z.ltb_spec t e); [|lia]. cbn. reflexivity.
      * rewrite !map_app. reflexivity.
      * rewrite !map_app. reflexivity.
      * apply WL; lia.
      * intros p I. apply in_app_iff in I as [I|[<-|[]]]; [auto|]. unfold en. cbn. lia.
      * intros _ p I. pose proof (WAD a p ltac:(apply in_app_iff; cbn; auto) I). lia.
  - exists (A ++ [a]), [], []. split; [|split; [|split; [|split; [|split; [|split; [|split; [|split]]]]]]].
    + cbn. rewrite !app_nil_r, !map_app. cbn. rewrite <- app_assoc. reflexivity.
    + f_equal. unfold left_part. replace (Z.min (en a) s) with (en a) by lia. destruct (Z.ltb_spec (st a) (en a)); [|lia].
      now rewrite ent_eta.
    + unfold right_part. destruct (Z.ltb_spec (Z.max (st a) t) (en a)); [lia|reflexivity].
    + destruct a as [[b e] v]. unfold report, en, st in *. cbn in *. destruct (Z.leb_spec e s); [reflexivity|lia].
    + now rewrite map_app.
    + now rewrite map_app.
    + rewrite <- (ent_eta a). apply WL; lia.
    + intros p I. apply in_app_iff in I as [I|[<-|[]]]; auto.
    + congruence.
Qed.

Lemma combine_map3 (l : list ent) : combine (combine (map st l) (map en l)) (map snd l) = l.
Proof. induction l as [|[[a b] v] l IH]; [reflexivity|]. cbn. f_equal. exact IH. Qed.
Lemma combine_length2 (l : list ent) : length (combine (map st l) (map en l)) = length (map snd l).
Proof. rewrite combine_length, !map_length. lia. Qed.

Lemma sorted_app (X Y : list Z) : StronglySorted Z.lt (X ++ Y) -> StronglySorted Z.lt X.
Proof.
  induction X as [|x X IH]; intros S; [constructor|]. cbn in S. inversion S as [|? ? S1 F]; subst.
  constructor; [auto|]. apply Forall_app in F. apply F.
Qed.

Definition ins_of (val : option V) : list ent := match val with Some v => [((s, t), v)] | None => [] end.

Lemma splice_ok l val : WF l ->
  im_splice (of_list l) s t val =
    Some (of_list (flat_map (left_part) l ++ ins_of val ++ flat_map right_part l), flat_map (report s t) l).
Proof.
  intros W. destruct (split_st l s W) as (A & D & -> & LA & LD).
  pose proof W as W0. apply wf_app in W0 as (WA & WD & WAD).
  destruct (split_en D t WD) as (B & C & -> & LB & LC).
  unfold im_splice, of_list. cbn [im_starts im_ends im_vals].
  rewrite assert_true by lia.
  assert (I1 : match binary_search (map st (A ++ B ++ C)) s with inl i => i | inr i => i end = length A).
  { rewrite map_app, bs_lt; [apply map_length|..].
    - intros a I. apply in_map_iff in I as (p & <- & I). auto.
    - intros a I. apply in_map_iff in I as (p & <- & I). auto. }
  rewrite I1.
  destruct (stage1_ok A (B ++ C) (map st (ins_of val)) (map en (ins_of val)) (map snd (ins_of val)) W LA LD)
    as (A1 & X & m1 & E & EA1 & EX & Em1 & SA & VA & WA1 & LA1 & XD).
  unfold stage1 in E.
  replace (match val with Some _ => [s] | None => [] end) with (map st (ins_of val)) by (destruct val; reflexivity).
  replace (match val with Some _ => [t] | None => [] end) with (map en (ins_of val)) by (destruct val; reflexivity).
  replace (match val with Some v => [v] | None => [] end) with (map snd (ins_of val)) by (destruct val; reflexivity).
  rewrite E. ob. clear E.
  apply wf_app in WD as (WB & WC & WBC).
  assert (LEN : length A1 = length A) by (rewrite <- (map_length st A1), SA; apply map_length).
  assert (WAll : WF (A1 ++ B)).
  { apply wf_app. split; [exact WA1|]. split; [exact WB|]. intros p q Ip Iq. specialize (LA1 _ Ip).
    specialize (LD q ltac:(apply in_app_iff; auto)). lia. }
  assert (I2 : match binary_search (map en (A1 ++ B ++ C)) t with inl i => S i | inr i => i end = (length A + length B)%nat).
  { rewrite app_assoc, map_app, bs_le.
    - rewrite map_length, app_length. lia.
    - now apply map_ends_sorted.
    - intros a I. apply in_map_iff in I as (p & <- & I). apply in_app_iff in I as [I|I]; [specialize (LA1 _ I); lia|auto].
    - intros a I. apply in_map_iff in I as (p & <- & I). auto. }
  rewrite I2.
  assert (IB : forall p, In p B -> s <= st p /\ en p <= t).
  { intros p I. split; [apply LD, in_app_iff; auto|auto]. }
  destruct (parts_inside B WB IB) as (B1 & B2 & B3).
  rewrite !flat_map_app, B1, B2, B3, <- EA1, <- EX, <- Em1. cbn [app].
  (* the interval after the splice *)
  assert (ST3 : exists C1 m3,
    (match nth_error (map st (A ++ B ++ C)) (length A + length B), nth_error (map en (A1 ++ B ++ C)) (length A + length B) with
     | Some s0, Some e => if (s0 <? t) && (t <? e)
        then (set_nth (map st (A ++ B ++ C)) (length A + length B) t, [ModifiedBegin (s0, e) t])
        else (map st (A ++ B ++ C), [])
     | _, _ => (map st (A ++ B ++ C), [])
     end) = (map st (A ++ B ++ C1), m3) /\ map en C1 = map en C /\ map snd C1 = map snd C /\
     flat_map left_part C = [] /\ flat_map right_part C = C1 /\ flat_map (report s t) C = m3).
  { destruct C as [|c C].
    - exists [], []. rewrite app_nil_r. split; [|auto].
      replace (length A + length B)%nat with (length (map st (A ++ B))) by (rewrite map_length, app_length; reflexivity).
      rewrite nth_error_end. reflexivity.
    - apply wf_cons in WC as (Pc & WC & FC). rewrite Forall_forall in FC.
      pose proof (LC c (or_introl eq_refl)) as Lc.
      assert (LCt : forall p, In p C -> t <= st p) by (intros p I; specialize (FC _ I); lia).
      destruct (parts_after C WC LCt) as (C1 & C2 & C3).
      pose proof (LD c ltac:(apply in_app_iff; right; cbn; auto)) as LDc.
      rewrite !(app_assoc A), !(app_assoc A1), !map_app. cbn [map].
      rewrite !nth_mid by (rewrite !app_length, !map_length; lia).
      destruct (Z.ltb_spec (st c) t) as [L|L].
      + destruct (Z.ltb_spec t (en c)); [|lia]. cbn [andb].
        exists (((t, en c), snd c) :: C), [ModifiedBegin (st c, en c) t]. split; [|split; [|split; [|split; [|split]]]].
        * rewrite set_mid by (rewrite !app_length, !map_length; lia). rewrite !map_app. cbn. rewrite <- app_assoc. reflexivity.
        * reflexivity.
        * reflexivity.
        * cbn [flat_map]. rewrite C1. unfold left_part. destruct (Z.ltb_spec (st c) (Z.min (en c) s)); [lia|reflexivity].
        * cbn [flat_map]. rewrite C2. unfold right_part. replace (Z.max (st c) t) with t by lia.
          destruct (Z.ltb_spec t (en c)); [reflexivity|lia].
        * cbn [flat_map]. rewrite C3, app_nil_r. destruct c as [[b e] v]. unfold report, en, st in *. cbn in *.
          destruct (Z.leb_spec e s); [lia|]. destruct (Z.leb_spec t b); [lia|]. cbn. unfold remainder.
          destruct (Z.ltb_spec b (Z.min e s)); [lia|]. replace (Z.max b t) with t by lia.
          destruct (Z.ltb_spec t e); [|lia]. cbn. destruct (Z.eqb_spec t b); [lia|reflexivity].
      + cbn [andb]. exists (c :: C), []. split; [|split; [reflexivity|split; [reflexivity|]]].
        * rewrite !map_app. cbn. rewrite <- !app_assoc. reflexivity.
        * apply parts_after; [apply wf_cons; repeat split; auto; try apply WC; now apply Forall_forall|].
          intros p [<-|I]; [exact L|auto]. }
  destruct ST3 as (C1 & m3 & E3 & EC & VC & P1 & P2 & P3). rewrite E3. clear E3. rewrite P1, P2, P3.
  rewrite !app_nil_r.
  rewrite !map_app. rewrite <- SA.
  assert (LL : length A = length (map st A1)) by (rewrite map_length; auto).
  assert (LE : length A = length (map en A1)) by (rewrite map_length; auto).
  assert (LV : length A = length (map snd A)) by now rewrite map_length.
  assert (KB : forall f : ent -> Z, length B = length (map f B)) by (intros; now rewrite map_length).
  assert (KV : length B = length (map snd B)) by now rewrite map_length.
  rewrite LL at 1 2. rewrite (KB st) at 1. rewrite vec_splice_app. ob.
  rewrite LE at 1 2. rewrite (KB en) at 1. rewrite vec_splice_app. ob.
  rewrite LV at 1 2. rewrite KV at 1. rewrite vec_splice_app. ob.
  rewrite assert_true by (rewrite combine_length2; apply Nat.leb_le; lia).
  rewrite combine_map3. rewrite VA, EC, VC. rewrite <- !app_assoc. reflexivity.
Qed.

Lemma left_in l p : In p (flat_map left_part l) <->
  exists q, In q l /\ st p = st q /\ en p = Z.min (en q) s /\ snd p = snd q /\ st q < Z.min (en q) s.
Proof.
  rewrite in_flat_map. split.
  - intros (q & I & J). exists q. unfold left_part in J. destruct (Z.ltb_spec (st q) (Z.min (en q) s)); [|destruct J].
    destruct J as [<-|[]]. auto.
  - intros (q & I & A & B & C & D). exists q. split; [exact I|]. unfold left_part.
    destruct (Z.ltb_spec (st q) (Z.min (en q) s)); [|lia]. left. rewrite <- (ent_eta p). congruence.
Qed.
Lemma right_in l p : In p (flat_map right_part l) <->
  exists q, In q l /\ st p = Z.max (st q) t /\ en p = en q /\ snd p = snd q /\ Z.max (st q) t < en q.
Proof.
  rewrite in_flat_map. split.
  - intros (q & I & J). exists q. unfold right_part in J. destruct (Z.ltb_spec (Z.max (st q) t) (en q)); [|destruct J].
    destruct J as [<-|[]]. auto.
  - intros (q & I & A & B & C & D). exists q. split; [exact I|]. unfold right_part.
    destruct (Z.ltb_spec (Z.max (st q) t) (en q)); [|lia]. left. rewrite <- (ent_eta p). congruence.
Qed.
Lemma wf_one (p : ent) : st p < en p -> WF [p].
Proof. intros H. apply wf_cons. split; [exact H|]. split; [apply wf_nil|constructor]. Qed.
Lemma wf_left l : WF l -> WF (flat_map left_part l).
Proof.
  induction l as [|p l IH]; intros W; [apply wf_nil|]. apply wf_cons in W as (A & W & F). cbn [flat_map].
  apply wf_app. split; [|split; [auto|]].
  - unfold left_part. destruct (Z.ltb_spec (st p) (Z.min (en p) s)); [|apply wf_nil]. apply wf_one. unfold st at 1, en at 1. cbn. lia.
  - intros x y I J. apply left_in in J as (q & J & E & _). unfold left_part in I.
    destruct (Z.ltb_spec (st p) (Z.min (en p) s)); [|destruct I]. destruct I as [<-|[]]. unfold en at 1. cbn.
    rewrite Forall_forall in F. specialize (F _ J). lia.
Qed.
Lemma wf_right l : WF l -> WF (flat_map right_part l).
Proof.
  induction l as [|p l IH]; intros W; [apply wf_nil|]. apply wf_cons in W as (A & W & F). cbn [flat_map].
  apply wf_app. split; [|split; [auto|]].
  - unfold right_part. destruct (Z.ltb_spec (Z.max (st p) t) (en p)); [|apply wf_nil]. apply wf_one. unfold st at 1, en at 1. cbn. lia.
  - intros x y I J. apply right_in in J as (q & J & E & _). unfold right_part in I.
    destruct (Z.ltb_spec (Z.max (st p) t) (en p)); [|destruct I]. destruct I as [<-|[]]. unfold en at 1. cbn.
    rewrite Forall_forall in F. specialize (F _ J). lia.
Qed.
Lemma wf_result l val : WF l -> WF (flat_map left_part l ++ ins_of val ++ flat_map right_part l).
Proof.
  intros W. apply wf_app. split; [now apply wf_left|]. split.
  - apply wf_app. split; [|split; [now apply wf_right|]].
    + destruct val; [|apply wf_nil]. apply wf_one. exact ST.
    + intros p q I J. apply right_in in J as (r & J & E & _). destruct val; [|destruct I]. destruct I as [<-|[]].
      unfold en. cbn. lia.
  - intros p q I J. apply left_in in I as (r & I & _ & E & _). apply in_app_iff in J as [J|J].
    + destruct val; [|destruct J]. destruct J as [<-|[]]. unfold st. cbn. lia.
    + apply right_in in J as (r2 & J & E2 & _). lia.
Qed.

Lemma result_in l val p : In p (flat_map left_part l ++ ins_of val ++ flat_map right_part l) <->
  (exists v, val = Some v /\ p = ((s, t), v)) \/
  (exists q, In q l /\ In (fst p) (remainder (fst (fst q)) (snd (fst q)) s t) /\ snd p = snd q).
Proof.
  rewrite !in_app_iff, left_in, right_in. split.
  - intros [(q & I & A & B & C & D)|[I|(q & I & A & B & C & D)]].
    + right. exists q. split; [exact I|]. split; [|exact C]. unfold remainder. apply in_app_iff. left.
      fold (st q) (en q). destruct (Z.ltb_spec (st q) (Z.min (en q) s)); [|lia]. left. destruct p as [[a b] v]. unfold st, en in *. cbn in *. congruence.
    + left. destruct val as [v|]; [|destruct I]. destruct I as [<-|[]]. eauto.
    + right. exists q. split; [exact I|]. split; [|exact C]. unfold remainder. apply in_app_iff. right.
      fold (st q) (en q). destruct (Z.ltb_spec (Z.max (st q) t) (en q)); [|lia]. left. destruct p as [[a b] v]. unfold st, en in *. cbn in *. congruence.
  - intros [(v & -> & ->)|(q & I & J & C)]; [right; left; cbn; auto|].
    unfold remainder in J. fold (st q) (en q) in J. apply in_app_iff in J as [J|J].
    + left. exists q. destruct (Z.ltb_spec (st q) (Z.min (en q) s)); [|destruct J]. destruct J as [J|[]].
      destruct p as [[a b] v]. cbn in J. injection J as <- <-. auto.
    + right. right. exists q. destruct (Z.ltb_spec (Z.max (st q) t) (en q)); [|destruct J]. destruct J as [J|[]].
      destruct p as [[a b] v]. cbn in J. injection J as <- <-. auto.
Qed.
End Splice.

(** * Lookups *)
Lemma wf_unique l p q x : WF l -> In p l -> In q l -> st p <= x < en p -> st q <= x < en q -> p = q.
Proof.
  induction l as [|r l IH]; intros W I J A B; [destruct I|]. apply wf_cons in W as (C & W & F). rewrite Forall_forall in F.
  destruct I as [<-|I], J as [<-|J]; auto.
  - specialize (F _ J). lia.
  - specialize (F _ I). lia.
Qed.

Lemma get_ok l x : WF l -> exists r, im_get (of_list l) x = Some r /\
  (forall p, r = Some p <-> In p l /\ st p <= x < en p).
Proof.
  intros W. destruct (split_st l x W) as (A & D & -> & LA & LD).
  pose proof W as W0. apply wf_app in W0 as (WA & WD & WAD).
  assert (F : forall p, In p (A ++ D) -> st p <= x < en p -> (exists d D', D = d :: D' /\ p = d /\ st d = x) \/
            (exists A', A = A' ++ [p] /\ forall d D', D = d :: D' -> x < st d)).
  { intros p I [L1 L2]. apply in_app_iff in I as [I|I].
    - right. destruct A as [|a A _] using rev_ind; [destruct I|].
      assert (p = a).
      { apply in_app_iff in I as [I|[<-|[]]]; [|reflexivity]. apply wf_app in WA as (_ & _ & K).
        specialize (K p a I (or_introl eq_refl)). specialize (LA a ltac:(apply in_app_iff; cbn; auto)). lia. }
      subst a. exists A. split; [reflexivity|]. intros d D' ->. specialize (WAD p d ltac:(apply in_app_iff; cbn; auto) (or_introl eq_refl)). lia.
    - left. pose proof (LD _ I). destruct D as [|d D]; [destruct I|]. exists d, D. split; [reflexivity|].
      destruct I as [<-|I]; [split; [reflexivity|lia]|]. apply wf_cons in WD as (P1 & _ & P2). rewrite Forall_forall in P2.
      specialize (P2 _ I). specialize (LD d (or_introl eq_refl)). lia. }
  unfold im_get, get_index, of_list. cbn [im_starts im_ends im_vals].
  unfold binary_search. rewrite map_app, filter_count.
  2:{ intros a I. apply in_map_iff in I as (p & <- & I). specialize (LA _ I). lia. }
  2:{ intros a I. apply in_map_iff in I as (p & <- & I). specialize (LD _ I). lia. }
  assert (HIT : forall d D', D = d :: D' -> st d = x -> exists r,
    (do r <- Some (Some (length (map st A)));
     match r with
     | Some i => do s <- nth_error (map st A ++ map st D) i; do e <- nth_error (map en (A ++ D)) i;
         do v <- nth_error (map snd (A ++ D)) i; Some (Some (s, e, v))
     | None => Some None end) = Some r /\
    (forall p, r = Some p <-> In p (A ++ D) /\ st p <= x < en p)).
  { intros d D' -> E. ob. cbn [map]. rewrite nth_error_mid. ob. rewrite !map_app. cbn [map].
    rewrite !nth_mid by now rewrite !map_length. ob. exists (Some d).
    split; [do 2 f_equal; apply ent_eta|]. intros p.
    assert (PD : st d < en d) by (apply (wf_pos (A ++ d :: D')); [exact W|apply in_app_iff; cbn; auto]).
    split.
    - intros [= <-]. split; [apply in_app_iff; cbn; auto|lia].
    - intros [I L]. f_equal. eapply wf_unique; [exact W| |exact I| |exact L]; [apply in_app_iff; cbn; auto|lia]. }
  assert (MISS : (forall d D', D = d :: D' -> st d <> x) -> exists r,
    (do r <- match length (map st A) with
             | 0%nat => Some None
             | S i => do e <- nth_error (map en (A ++ D)) i; Some (if x <? e then Some i else None)
             end;
     match r with
     | Some i => do s <- nth_error (map st A ++ map st D) i; do e <- nth_error (map en (A ++ D)) i;
         do v <- nth_error (map snd (A ++ D)) i; Some (Some (s, e, v))
     | None => Some None end) = Some r /\
    (forall p, r = Some p <-> In p (A ++ D) /\ st p <= x < en p)).
  { intros N. destruct A as [|a A _] using rev_ind.
    - cbn [map length]. ob. exists None. split; [reflexivity|]. intros p. split; [discriminate|]. intros [I L].
      exfalso. destruct (F _ I L) as [(d & D' & E & _ & E2)|([|] & E & _)]; [exact (N d D' E E2)|discriminate|discriminate].
    - rewrite map_length, app_length. cbn [length]. replace (length A + 1)%nat with (S (length A)) by lia.
      rewrite <- app_assoc. cbn [app]. rewrite (map_app en). cbn [map]. rewrite nth_mid by now rewrite map_length. ob.
      destruct (Z.ltb_spec x (en a)) as [L|L]; ob.
      + rewrite !map_app, <- !app_assoc. cbn [map app]. rewrite !nth_mid by now rewrite map_length. ob.
        exists (Some a). split; [do 2 f_equal; apply ent_eta|]. intros p.
        pose proof (LA a ltac:(apply in_app_iff; cbn; auto)). rewrite <- app_assoc in W. cbn [app] in W. split.
        * intros [= <-]. split; [apply in_app_iff; cbn; auto|lia].
        * intros [I L2]. f_equal. eapply wf_unique; [exact W| |exact I| |exact L2]; [apply in_app_iff; cbn; auto|lia].
      + exists None. split; [reflexivity|]. intros p. split; [discriminate|]. intros [I L2]. exfalso.
        rewrite <- app_assoc in F. cbn [app] in F. destruct (F _ I L2) as [(d & D' & E & _ & E2)|(A' & E & _)]; [exact (N d D' E E2)|].
        apply app_inj_tail in E as [_ <-]. lia. }
  rewrite map_length in *. destruct D as [|d D].
  - cbn [map] in *. rewrite !app_nil_r in *.
    replace (nth_error (map st A) (length A)) with (@None Z) by (symmetry; apply nth_error_None; rewrite map_length; lia).
    destruct (length A) eqn:LN; apply MISS; discriminate.
  - cbn [map] in *. rewrite nth_mid by now rewrite map_length. destruct (Z.eqb_spec (st d) x) as [E|E].
    + eapply HIT; eauto.
    + destruct (length A) eqn:LN; apply MISS; intros ? ? [= <- <-]; exact E.
Qed.

(** * Histories *)
Lemma step_ok l o : WF l -> op_ok o -> exists l',
  im_step (of_list l) o = Some (of_list l', flat_map (report (fst (op_range o)) (snd (op_range o))) l) /\ WF l' /\
  forall p, In p l' <->
    (exists v, op_value o = Some v /\ p = (op_range o, v)) \/
    (exists q, In q l /\ In (fst p) (remainder (fst (fst q)) (snd (fst q)) (fst (op_range o)) (snd (op_range o))) /\ snd p = snd q).
Proof.
  intros W OK. destruct o as [s t v|s t]; unfold op_ok in OK; cbn [op_range op_value fst snd] in *; cbn [im_step]; unfold im_insert, im_clear;
    rewrite splice_ok by assumption; eexists; (split; [reflexivity|]); (split; [now apply wf_result|]); intros p;
    rewrite result_in; reflexivity.
Qed.

Lemma step_bad (m : imap V) o : ~ op_ok o -> im_step m o = None.
Proof.
  unfold op_ok. destruct o as [s t v|s t]; cbn; intros N; unfold im_insert, im_clear, im_splice, assert_then;
    (destruct (Z.ltb_spec s t); [lia|reflexivity]).
Qed.

Lemma run_app m a b : im_run m (a ++ b) = do m' <- im_run m a; @im_run V m' b.
Proof.
  revert m. induction a as [|o a IH]; intros m; [reflexivity|]. cbn [im_run app].
  destruct (im_step m o) as [[m' u]|]; [|reflexivity]. ob. apply IH.
Qed.

Lemma run_ok ops : forall m, im_run im_new ops = Some m -> exists l, m = of_list l /\ WF l /\
  (forall x v, value_at (rev ops) x = Some v <-> exists p, In p l /\ st p <= x < en p /\ snd p = v).
Proof.
  induction ops as [|o ops IH] using rev_ind; intros m R.
  - injection R as <-. exists []. split; [reflexivity|]. split; [apply wf_nil|]. intros x v. cbn.
    split; [discriminate|]. intros (p & [] & _).
  - rewrite run_app in R. destruct (im_run im_new ops) as [m0|] eqn:R0; [|discriminate]. ob_in R. cbn [im_run] in R.
    destruct (IH _ eq_refl) as (l & -> & W & V0).
    assert (OK : op_ok o).
    { unfold op_ok. destruct (Z_lt_le_dec (fst (op_range o)) (snd (op_range o))) as [L|L]; [exact L|].
      rewrite step_bad in R; [discriminate|unfold op_ok; lia]. }
    destruct (step_ok l o W OK) as (l' & E & W' & IN). rewrite E in R. ob_in R. injection R as <-.
    exists l'. split; [reflexivity|]. split; [exact W'|]. intros x v. rewrite rev_app_distr. cbn [rev app value_at].
    unfold op_ok in OK. destruct (op_range o) as [s t]. cbn [fst snd] in *.
    destruct (Z.leb_spec s x) as [L1|L1]; [destruct (Z.ltb_spec x t) as [L2|L2]|]; cbn [andb].
    + (* inside *)
      split.
      * intros E2. exists ((s, t), v). rewrite IN. split; [left; eauto|]. split; [unfold st, en; cbn; lia|reflexivity].
      * intros (p & I & L & <-). apply IN in I as [(v & -> & ->)|(q & I & J & C)]; [reflexivity|exfalso].
        unfold remainder in J. apply in_app_iff in J as [J|J].
        -- destruct (_ <? _); [|destruct J]. destruct J as [J|[]]. unfold st, en in L. rewrite <- J in L. cbn in L. lia.
        -- destruct (_ <? _); [|destruct J]. destruct J as [J|[]]. unfold st, en in L. rewrite <- J in L. cbn in L. lia.
    + rewrite V0. split.
      * intros (q & I & L & <-). exists ((Z.max (st q) t, en q), snd q). rewrite IN. split; [|unfold st, en in *; cbn; split; [lia|reflexivity]].
        right. exists q. split; [exact I|]. split; [|reflexivity]. unfold remainder. apply in_app_iff. right.
        fold (st q) (en q). destruct (Z.ltb_spec (Z.max (st q) t) (en q)); [left; reflexivity|lia].
      * intros (p & I & L & <-). apply IN in I as [(v & _ & ->)|(q & I & J & C)]; [unfold st, en in L; cbn in L; lia|].
        exists q. split; [exact I|]. split; [|auto]. unfold remainder in J. fold (st q) (en q) in J. apply in_app_iff in J as [J|J].
        -- destruct (_ <? _); [|destruct J]. destruct J as [J|[]]. unfold st, en in L. rewrite <- J in L. cbn in L. lia.
        -- destruct (_ <? _); [|destruct J]. destruct J as [J|[]]. unfold st at 1 in L. unfold en at 1 in L. rewrite <- J in L. cbn in L. lia.
    + rewrite V0. split.
      * intros (q & I & L & <-). exists ((st q, Z.min (en q) s), snd q). rewrite IN. split; [|unfold st, en in *; cbn; split; [lia|reflexivity]].
        right. exists q. split; [exact I|]. split; [|reflexivity]. unfold remainder. apply in_app_iff. left.
        fold (st q) (en q). destruct (Z.ltb_spec (st q) (Z.min (en q) s)); [left; reflexivity|lia].
      * intros (p & I & L & <-). apply IN in I as [(v & _ & ->)|(q & I & J & C)]; [unfold st, en in L; cbn in L; lia|].
        exists q. split; [exact I|]. split; [|auto]. unfold remainder in J. fold (st q) (en q) in J. apply in_app_iff in J as [J|J].
        -- destruct (_ <? _); [|destruct J]. destruct J as [J|[]]. unfold st at 1 in L. unfold en at 1 in L. rewrite <- J in L. cbn in L. lia.
        -- destruct (_ <? _); [|destruct J]. destruct J as [J|[]]. unfold st, en in L. rewrite <- J in L. cbn in L. lia.
Qed.

Lemma lookup_main : forall (ops : list (iop V)) m x, im_run im_new ops = Some m ->
  exists r, im_get m x = Some r /\ option_map snd r = value_at (rev ops) x /\
  (forall p, r = Some p <-> In p (im_iter m) /\ fst (fst p) <= x < snd (fst p)).
Proof.
  intros ops m x R. destruct (run_ok ops m R) as (l & -> & W & V0). destruct (get_ok l x W) as (r & E & P).
  exists r. split; [exact E|]. unfold im_iter. rewrite items_of_list. cbn [skipn]. split; [|exact P].
  destruct r as [p|]; cbn.
  - symmetry. apply V0. exists p. destruct (proj1 (P p) eq_refl). auto.
  - destruct (value_at (rev ops) x) as [v|] eqn:E2; [|reflexivity]. apply V0 in E2 as (p & I & L & _).
    pose proof (proj2 (P p) (conj I L)). discriminate.
Qed.

Lemma intervals_main : forall ops m, @im_run V im_new ops = Some m -> intervals_ok (im_iter m) /\ im_keys m = map fst (im_iter m).
Proof.
  intros ops m R. destruct (run_ok ops m R) as (l & -> & W & _). unfold im_iter, im_keys. rewrite items_of_list. auto.
Qed.

Lemma total_main : forall ops, Forall op_ok ops <-> exists m, @im_run V im_new ops = Some m.
Proof.
  induction ops as [|o ops IH] using rev_ind; [split; [intros _; eexists; reflexivity|constructor]|]. rewrite Forall_app. split.
  - intros [F Fo]. apply IH in F as [m R]. rewrite run_app, R. ob. destruct (run_ok ops m R) as (l & -> & W & _).
    inversion Fo; subst. destruct (step_ok l o W H1) as (l' & E & _). cbn [im_run]. rewrite E. ob. eauto.
  - intros [m R]. rewrite run_app in R. destruct (im_run im_new ops) as [m0|]; [|discriminate]. ob_in R.
    split; [apply IH; eauto|]. constructor; [|constructor]. cbn in R. unfold op_ok.
    destruct (Z_lt_le_dec (fst (op_range o)) (snd (op_range o))) as [L|L]; [exact L|].
    rewrite step_bad in R; [discriminate|unfold op_ok; lia].
Qed.

Lemma change_main : forall (ops : list (iop V)) m o m' muts, im_run im_new ops = Some m -> im_step m o = Some (m', muts) ->
  let s := fst (op_range o) in let e := snd (op_range o) in
  muts = flat_map (report s e) (im_iter m) /\
  forall p, In p (im_iter m') <->
    (exists v, op_value o = Some v /\ p = ((s, e), v)) \/
    (exists q, In q (im_iter m) /\ In (fst p) (remainder (fst (fst q)) (snd (fst q)) s e) /\ @snd _ V p = snd q).
Proof.
  intros ops m o m' muts R E s e. destruct (run_ok ops m R) as (l & -> & W & _).
  assert (OK : op_ok o).
  { unfold op_ok. destruct (Z_lt_le_dec (fst (op_range o)) (snd (op_range o))) as [L|L]; [exact L|].
    rewrite step_bad in E; [discriminate|unfold op_ok; lia]. }
  destruct (step_ok l o W OK) as (l' & E2 & W' & IN). rewrite E2 in E. injection E as <- <-.
  unfold im_iter. rewrite !items_of_list. cbn [skipn]. split; [reflexivity|]. intros p. rewrite IN.
  unfold s, e. destruct (op_range o); reflexivity.
Qed.

Lemma skipn_filter l x : WF l -> forall A D, l = A ++ D -> (forall p, In p A -> en p <= x) -> (forall p, In p D -> x < en p) ->
  filter (fun p => x <? snd (fst p)) l = D.
Proof.
  intros _ A D -> HA HD. rewrite filter_app.
  match goal with |- filter ?f A ++ _ = _ => assert (E1 : filter f A = []) end.
  { induction A as [|[[b e] v] A IH]; [reflexivity|]. pose proof (HA _ (or_introl eq_refl)) as H. unfold en in H. cbn in H |- *.
    destruct (Z.ltb_spec x e); [lia|]. apply IH. intros p I. apply HA. cbn. auto. }
  refine (eq_trans (f_equal (fun z => z ++ _) E1) _). cbn [app]. clear E1. induction D as [|[[b e] v] D IH]; [reflexivity|]. pose proof (HD _ (or_introl eq_refl)) as H. unfold en in H. cbn in H |- *.
  destruct (Z.ltb_spec x e); [|lia]. f_equal. apply IH. intros p I. apply HD. cbn. auto.
Qed.

Lemma iter_from_main : forall ops m x, @im_run V im_new ops = Some m ->
  im_iter_from m x = Some (filter (fun p => x <? snd (fst p)) (im_iter m)).
Proof.
  intros ops m x R. destruct (run_ok ops m R) as (l & -> & W & _). unfold im_iter, im_iter_from. rewrite items_of_list. cbn [skipn].
  destruct (split_st l x W) as (A & D & -> & LA & LD). pose proof W as W0. apply wf_app in W0 as (WA & WD & WAD).
  assert (LDe : forall p, In p D -> x < en p) by (intros p I; specialize (LD _ I); pose proof (wf_pos _ _ WD I); lia).
  unfold binary_search, of_list. cbn [im_starts im_ends]. rewrite map_app, filter_count.
  2:{ intros a I. apply in_map_iff in I as (p & <- & I). specialize (LA _ I). lia. }
  2:{ intros a I. apply in_map_iff in I as (p & <- & I). specialize (LD _ I). lia. }
  rewrite map_length.
  assert (SK : forall X Y, A ++ D = X ++ Y -> (forall p, In p X -> en p <= x) -> (forall p, In p Y -> x < en p) ->
    Some (items_from (mkIM (map st A ++ map st D) (map en (A ++ D)) (map snd (A ++ D))) (length X)) =
    Some (filter (fun p => x <? snd (fst p)) (A ++ D))).
  { intros X Y E HX HY. rewrite (skipn_filter _ x W _ _ E HX HY). rewrite <- map_app. rewrite E.
    change (Some (items_from (of_list (X ++ Y)) (length X)) = Some Y). rewrite items_of_list.
    rewrite skipn_app, skipn_all, Nat.sub_diag. reflexivity. }
  assert (ALL : (forall p, In p A -> en p <= x) -> Some (items_from (mkIM (map st A ++ map st D) (map en (A ++ D)) (map snd (A ++ D))) (length A)) =
    Some (filter (fun p => x <? snd (fst p)) (A ++ D))) by (intros H; apply (SK A D); auto).
  assert (MISS : (do idx <- match length A with
            | 0%nat => Some 0%nat
            | S i => do e <- nth_error (map en (A ++ D)) i; Some (if x <? e then i else S i)
            end;
     Some (items_from (mkIM (map st A ++ map st D) (map en (A ++ D)) (map snd (A ++ D))) idx)) =
     Some (filter (fun p => x <? snd (fst p)) (A ++ D))).
  { destruct A as [|a A _] using rev_ind; [cbn [length]; ob; apply ALL; intros ? []|].
    assert (LA' : forall p, In p A -> en p <= x).
    { intros p I. apply wf_app in WA as (_ & _ & K). specialize (K p a I (or_introl eq_refl)).
      specialize (LA a ltac:(apply in_app_iff; cbn; auto)). lia. }
    rewrite app_length. cbn [length]. replace (length A + 1)%nat with (S (length A)) by lia.
    rewrite <- app_assoc at 1. cbn [app]. rewrite (map_app en). cbn [map]. rewrite nth_mid by now rewrite map_length. ob.
    destruct (Z.ltb_spec x (en a)) as [L|L]; ob.
    - rewrite (SK A (a :: D)); [reflexivity|rewrite <- app_assoc; reflexivity|exact LA'|].
      intros p [<-|I]; auto.
    - replace (S (length A)) with (length (A ++ [a])) by (rewrite app_length; cbn; lia). apply ALL.
      intros p I. apply in_app_iff in I as [I|[<-|[]]]; auto. }
  destruct D as [|d D].
  - cbn [map] in *. rewrite !app_nil_r in *.
    replace (nth_error (map st A) (length A)) with (@None Z) by (symmetry; apply nth_error_None; rewrite map_length; lia).
    destruct (length A) eqn:LN; exact MISS.
  - cbn [map] in *. rewrite nth_mid by now rewrite map_length. destruct (Z.eqb_spec (st d) x) as [E|E].
    + ob. apply ALL. intros p I. specialize (WAD p d I (or_introl eq_refl)). lia.
    + destruct (length A) eqn:LN; exact MISS.
Qed.
End P.
