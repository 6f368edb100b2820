(** Shadow's view of the memory of a process: the regions, Shadow's mappings and the file. *)
From Verif Require Import Base IntervalModel IntervalSpec IntervalProofs MemKernel MemModel MemSpec.

Notation ent := (interval * region)%type.
Notation base q := (r_base (snd q)).

Lemma rup_whole x : aligned x -> rup x = x.
Proof.
  unfold rup, aligned. intros E. rewrite (Z.div_mod x PAGE) at 1 by (unfold PAGE; lia). rewrite E, Z.add_0_r.
  rewrite (Z.mul_comm PAGE), Z.div_add_l by (unfold PAGE; lia). replace ((PAGE - 1) / PAGE) with 0 by reflexivity.
  rewrite Z.add_0_r. pose proof (Z.div_mod x PAGE ltac:(unfold PAGE; lia)). lia.
Qed.
Lemma al_add a b : aligned a -> aligned b -> aligned (a + b).
Proof. unfold aligned. intros A B. rewrite Z.add_mod, A, B by (unfold PAGE; lia). reflexivity. Qed.
Lemma al_sub a b : aligned a -> aligned b -> aligned (a - b).
Proof. unfold aligned. intros A B. rewrite Zminus_mod, A, B. reflexivity. Qed.
Lemma inr_iff s e x : inr s e x = true <-> s <= x < e.
Proof. unfold inr. lia. Qed.
Lemma inr_no s e x : inr s e x = false <-> ~ (s <= x < e).
Proof. rewrite <- inr_iff. destruct (inr s e x); split; congruence. Qed.
Lemma over_in {A} s e (g f : Z -> A) x : s <= x < e -> over s e g f x = g x.
Proof. intros H. unfold over. apply inr_iff in H. now rewrite H. Qed.
Lemma over_out {A} s e (g f : Z -> A) x : ~ (s <= x < e) -> over s e g f x = f x.
Proof. intros H. unfold over. apply inr_no in H. now rewrite H. Qed.
Lemma inr_dec s e x : s <= x < e \/ ~ (s <= x < e).
Proof. lia. Qed.
#[global] Opaque rup PAGE.

(** * Regions *)
Lemma get1_ok l (q : ent) x : WF l -> In q l -> st q <= x < en q -> im_get (of_list l) x = Some (Some q).
Proof. intros W I L. destruct (get_ok l x W) as (r & E & H). rewrite E. f_equal. apply H. auto. Qed.
Lemma get1_none l x : WF l -> (forall q : ent, In q l -> ~ (st q <= x < en q)) -> im_get (of_list l) x = Some None.
Proof.
  intros W N. destruct (get_ok l x W) as (r & E & H). rewrite E. f_equal. destruct r as [q|]; [|reflexivity].
  destruct (proj1 (H q) eq_refl) as [I L]. destruct (N q I L).
Qed.
Lemma nth_wf l : WF l -> forall i j (p q : ent), nth_error l i = Some p -> nth_error l j = Some q -> fst p = fst q -> i = j.
Proof.
  induction l as [|a l IH]; intros W [|i] [|j] p q A B E; cbn in A, B; try discriminate; auto.
  - injection A as <-. apply nth_error_In in B. apply wf_cons in W as (P & W & F). rewrite Forall_forall in F.
    specialize (F _ B). unfold st, en in *. rewrite E in *. lia.
  - injection B as <-. apply nth_error_In in A. apply wf_cons in W as (P & W & F). rewrite Forall_forall in F.
    specialize (F _ A). unfold st, en in *. rewrite <- E in *. lia.
  - f_equal. apply wf_cons in W as (P & W & F). eapply IH; eauto.
Qed.
Lemma wf_intervals (l l' : list ent) : map fst l = map fst l' -> WF l -> WF l'.
Proof.
  revert l'. induction l as [|p l IH]; intros [|q l'] E W; cbn in E; try discriminate; [exact W|].
  injection E as E1 E2. apply wf_cons in W as (P & W & F). apply wf_cons.
  unfold st, en in *. rewrite <- E1. split; [exact P|]. split; [now apply IH|].
  rewrite Forall_forall in *. intros r I. apply (in_map fst) in I. rewrite <- E2 in I. apply in_map_iff in I as (r0 & E3 & I).
  rewrite <- E3. exact (F _ I).
Qed.
Lemma set_ok l x (p : ent) v : WF l -> In p l -> st p <= x < en p ->
  exists l', im_set (of_list l) x v = Some (of_list l') /\ WF l' /\
    (forall q, In q l' <-> q = (fst p, v) \/ (In q l /\ fst q <> fst p)).
Proof.
  intros W I L. pose proof (get1_ok l p x W I L) as G. unfold im_get in G. unfold im_set.
  destruct (get_index (of_list l) x) as [[i|]|]; ob_in G; try discriminate. ob.
  cbn [of_list im_starts im_ends im_vals] in *.
  destruct (nth_error (map st l) i) as [a|] eqn:N1; ob_in G; [|discriminate].
  destruct (nth_error (map en l) i) as [b|] eqn:N2; ob_in G; [|discriminate].
  destruct (nth_error (map snd l) i) as [w|] eqn:N3; ob_in G; [|discriminate]. injection G as G.
  assert (N : nth_error l i = Some p).
  { destruct (nth_error l i) as [p'|] eqn:N.
    - rewrite (map_nth_error st _ _ N) in N1. rewrite (map_nth_error en _ _ N) in N2. rewrite (map_nth_error snd _ _ N) in N3.
      injection N1 as <-. injection N2 as <-. injection N3 as <-. rewrite <- G. f_equal. destruct p' as [[? ?] ?]. reflexivity.
    - apply nth_error_None in N. assert (X : nth_error (map st l) i = None) by (apply nth_error_None; rewrite map_length; lia). congruence. }
  destruct (nth_error_split _ _ N) as (A & B & E & LA).
  exists (A ++ (fst p, v) :: B). subst l i. split.
  - f_equal. unfold of_list. rewrite !map_app. cbn [map]. unfold st at 3, en at 3. cbn [fst snd]. fold (st p) (en p). f_equal.
    rewrite set_mid by now rewrite map_length. reflexivity.
  - assert (WW : WF (A ++ (fst p, v) :: B)).
    { eapply wf_intervals; [|exact W]. rewrite !map_app. reflexivity. }
    split; [exact WW|]. intros q. rewrite !in_app_iff. cbn [In]. split.
    + intros [J|[<-|J]]; [right|auto|right].
      * split; [auto|]. intros E. apply In_nth_error in J as [j J].
        assert (Lj : (j < length A)%nat) by (apply nth_error_Some; congruence).
        pose proof (nth_wf _ W j (length A) q p) as U. rewrite nth_error_app1 in U by lia.
        specialize (U J N E). lia.
      * split; [auto|]. intros E. apply In_nth_error in J as [j J].
        pose proof (nth_wf _ W (length A + S j)%nat (length A) q p) as U. rewrite nth_error_app2 in U by lia.
        replace (length A + S j - length A)%nat with (S j) in U by lia. cbn [nth_error] in U. specialize (U J N E). lia.
    + intros [->|[[J|[<-|J]] NE]]; auto. congruence.
Qed.

(** * Changes of one entry *)
Section Cut.
Variables s t : Z.
Hypothesis ST : s < t.
Definition rem (q : ent) : list interval := remainder (st q) (en q) s t.
Definition shift (q : ent) (b : Z) : region := if base q =? 0 then snd q else with_base (base q + (b - st q)) (snd q).

Inductive touches (q : ent) : list (mutation region) -> Prop :=
| T_none : (en q <= s \/ t <= st q) -> rem q = [fst q] -> touches q []
| T_split : st q < s -> t < en q -> rem q = [(st q, s); (t, en q)] -> touches q [Split (st q, en q) (st q, s) (t, en q)]
| T_end : st q < s -> s < en q -> en q <= t -> rem q = [(st q, s)] -> touches q [ModifiedEnd (st q, en q) s]
| T_begin : s <= st q -> st q < t -> t < en q -> rem q = [(t, en q)] -> touches q [ModifiedBegin (st q, en q) t]
| T_all : s <= st q -> en q <= t -> rem q = [] -> touches q [Removed (st q, en q) (snd q)].
Lemma touches_ok (q : ent) : st q < en q -> touches q (report s t q).
Proof.
  intros P. destruct q as [[b e] v]. unfold st, en in *. cbn [fst snd] in *. cbn [report].
  destruct ((e <=? s) || (t <=? b)) eqn:Q.
  - apply T_none; unfold rem, remainder, st, en; cbn [fst snd]; [lia|].
    destruct (Z.ltb_spec b (Z.min e s)), (Z.ltb_spec (Z.max b t) e); cbn [app]; try lia.
    + replace (Z.min e s) with e by lia. reflexivity.
    + replace (Z.max b t) with b by lia. reflexivity.
  - destruct (Z.ltb_spec b (Z.min e s)) as [L1|L1], (Z.ltb_spec (Z.max b t) e) as [L2|L2];
      assert (R : rem ((b, e), v) = (if b <? Z.min e s then [(b, Z.min e s)] else []) ++ (if Z.max b t <? e then [(Z.max b t, e)] else [])) by reflexivity;
      pose proof R as R'; unfold rem, st, en in R'; cbn [fst snd] in R'; rewrite R'; clear R';
      destruct (Z.ltb_spec b (Z.min e s)) as [|]; try lia; destruct (Z.ltb_spec (Z.max b t) e); try lia; cbn [app] in *.
    + replace (Z.min e s) with s in * by lia. replace (Z.max b t) with t in * by lia. apply (T_split ((b, e), v)); unfold st, en; cbn [fst snd]; auto; lia.
    + replace (Z.min e s) with s in * by lia. destruct (Z.eqb_spec b b); [|lia].
      apply (T_end ((b, e), v)); unfold st, en; cbn [fst snd]; auto; lia.
    + replace (Z.max b t) with t in * by lia. destruct (Z.eqb_spec t b); [lia|].
      apply (T_begin ((b, e), v)); unfold st, en; cbn [fst snd]; auto; lia.
    + apply (T_all ((b, e), v)); unfold st, en; cbn [fst snd]; auto; lia.
Qed.
Lemma rem_in q b e : st q < en q -> In (b, e) (rem q) -> st q <= b /\ b < e /\ e <= en q /\ (e <= s \/ t <= b) /\ (b = st q \/ b = t).
Proof.
  intros P. unfold rem, remainder. rewrite in_app_iff.
  destruct (Z.ltb_spec (st q) (Z.min (en q) s)), (Z.ltb_spec (Z.max (st q) t) (en q)); cbn [In]; intros [[E|[]]|[E|[]]] || intros [[]|[E|[]]] || intros [[E|[]]|[]] || intros [[]|[]];
    injection E as <- <-; lia.
Qed.
Lemma rem_cover q x : st q <= x < en q -> ~ (s <= x < t) -> exists b e, In (b, e) (rem q) /\ b <= x < e.
Proof.
  intros P N. unfold rem, remainder. destruct (Z_lt_le_dec x s).
  - exists (st q), (Z.min (en q) s). rewrite in_app_iff. destruct (Z.ltb_spec (st q) (Z.min (en q) s)); [|lia]. cbn. split; [auto|lia].
  - exists (Z.max (st q) t), (en q). rewrite in_app_iff. destruct (Z.ltb_spec (Z.max (st q) t) (en q)); [|lia]. cbn. split; [auto|lia].
Qed.
Lemma shift_same q : shift q (st q) = snd q.
Proof.
  unfold shift. destruct (r_base (snd q) =? 0); [reflexivity|]. replace (base q + (st q - st q)) with (base q) by lia.
  destruct (snd q). reflexivity.
Qed.
Lemma shift_null q b : base q = 0 -> shift q b = snd q.
Proof. intros E. unfold shift. rewrite E. reflexivity. Qed.
End Cut.
