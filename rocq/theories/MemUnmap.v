(** unmap_mutations: what is left of regions, mappings and file after a range was cleared. *)
From Verif Require Import Base IntervalModel IntervalSpec IntervalProofs MemKernel MemModel MemSpec MemLayout.

Definition not_file (p : option path) : Prop := match p with Some (PFile _) => False | _ => True end.

(** Regions, Shadow's mappings and the file agree, but for bytes [G] of a region taken out of the map. *)
Record lay (G : Z -> bool) (k : kern) (l : list ent) : Prop := {
  la_wf : WF l;
  la_al : forall q, In q l -> aligned (st q) /\ aligned (en q) /\ 0 <= st q /\ en q <= U64_MAX;
  la_shm : forall q, In q l -> base q <> 0 -> aligned (base q) /\ 0 < base q /\ en q <= k_flen k /\ not_file (r_path (snd q));
  la_heap : forall q, In q l -> r_path (snd q) = Some PHeap -> base q <> 0;
  la_map : forall q x, In q l -> base q <> 0 -> st q <= x < en q -> k_shad k (base q + (x - st q)) = Some (r_prot (snd q), x);
  la_rev : forall y p x, k_shad k y = Some (p, x) -> G x = false -> exists q, In q l /\ base q <> 0 /\ st q <= x < en q /\ y = base q + (x - st q);
  la_zero : forall x, k_file k x <> 0 -> G x = false -> exists q, In q l /\ base q <> 0 /\ st q <= x < en q;
  la_out : forall q x, In q l -> st q <= x < en q -> G x = false }.
Definition none : Z -> bool := fun _ => false.

Section Un.
Variables s t : Z.
Hypothesis ST : s < t.
Hypothesis AS : aligned s.
Hypothesis AT : aligned t.
Variable G : Z -> bool.
Variable k0 : kern.
Variable l : list ent.
Hypothesis L : lay G k0 l.

Definition own (x : Z) (q : ent) : bool := negb (base q =? 0) && inr (st q) (en q) x && inr s t x.
Definition hit (d : list ent) (x : Z) : bool := existsb (own x) d.
Lemma hit_snoc d q x : hit (d ++ [q]) x = hit d x || own x q.
Proof. unfold hit. rewrite existsb_app. cbn [existsb]. now rewrite orb_false_r. Qed.
Lemma own_iff x q : own x q = true <-> base q <> 0 /\ st q <= x < en q /\ s <= x < t.
Proof. unfold own. rewrite !andb_true_iff, !inr_iff, negb_true_iff, Z.eqb_neq. tauto. Qed.

Record kinv (d : list ent) (k : kern) : Prop := {
  ki_plug : k_plug k = k_plug k0;
  ki_obj : k_obj k = k_obj k0;
  ki_flen : k_flen k = k_flen k0;
  ki_file : forall x, k_file k x = if hit d x then 0 else k_file k0 x;
  ki_shad : forall y, k_shad k y = match k_shad k0 y with Some (p, x) => if hit d x then None else Some (p, x) | None => None end }.

Lemma kinv_same d q k : (forall x, own x q = false) -> kinv d k -> kinv (d ++ [q]) k.
Proof.
  intros O [A B C D E]. split; auto.
  - intros x. rewrite hit_snoc, O, orb_false_r. apply D.
  - intros y. rewrite E. destruct (k_shad k0 y) as [[p x]|]; [|reflexivity]. rewrite hit_snoc, O, orb_false_r. reflexivity.
Qed.
Lemma kill_ok d q k ms me b : In q l -> base q <> 0 -> ms = Z.max (st q) s -> me = Z.min (en q) t -> ms < me ->
  b = base q + (ms - st q) -> kinv d k -> kinv (d ++ [q]) (s_munmap b (me - ms) (f_punch ms me k)).
Proof.
  intros I NB EM EE LT EB [A B C D E]. destruct (la_al _ _ _ L q I) as (A1 & A2 & _). destruct (la_shm _ _ _ L q I NB) as (A3 & A4 & _).
  assert (AM : aligned ms) by (subst ms; destruct (Z.max_spec (st q) s) as [[_ ->]|[_ ->]]; auto).
  assert (AE : aligned me) by (subst me; destruct (Z.min_spec (en q) t) as [[_ ->]|[_ ->]]; auto).
  unfold s_munmap. replace (b mod PAGE =? 0) with true.
  2:{ symmetry. apply Z.eqb_eq. subst b. change (aligned (base q + (ms - st q))). apply al_add; auto. apply al_sub; auto. }
  rewrite rup_whole by (apply al_sub; auto). split; cbn; auto.
  - intros x. rewrite hit_snoc. destruct (inr_dec ms me x) as [H|H].
    + rewrite over_in by assumption. replace (own x q) with true; [now rewrite orb_true_r|]. symmetry. apply own_iff. split; [exact NB|lia].
    + rewrite over_out by assumption. rewrite D. replace (own x q) with false; [now rewrite orb_false_r|].
      symmetry. apply not_true_iff_false. rewrite own_iff. intros (_ & X). lia.
  - intros y. destruct (inr_dec b (b + (me - ms)) y) as [H|H].
    + rewrite over_in by assumption. pose proof (la_map _ _ _ L q (st q + (y - base q)) I NB ltac:(lia)) as M.
      replace (base q + (st q + (y - base q) - st q)) with y in M by lia. rewrite M, hit_snoc.
      replace (own _ q) with true; [now rewrite orb_true_r|]. symmetry. apply own_iff. split; [exact NB|lia].
    + rewrite over_out by assumption. rewrite E. destruct (k_shad k0 y) as [[p x]|] eqn:Q; [|reflexivity].
      rewrite hit_snoc. replace (own x q) with false; [now rewrite orb_false_r|]. symmetry. apply not_true_iff_false.
      rewrite own_iff. intros (_ & X & Y). destruct (la_rev _ _ _ L _ _ _ Q (la_out _ _ _ L q x I X)) as (q' & I' & N' & X' & Y').
      assert (q' = q) by (apply (wf_unique l q' q x (la_wf _ _ _ L) I' I); lia). subst q'. lia.
Qed.

Definition mem (X : ent -> Prop) (d td lc : list ent) : Prop := forall p, In p lc <->
  (exists q, In q d /\ In (fst p) (rem s t q) /\ snd p = shift q (st p)) \/
  (exists q, In q td /\ In (fst p) (rem s t q) /\ snd p = snd q) \/ X p.
Notation nox := (fun _ : ent => False).

Lemma pos q : In q l -> st q < en q.
Proof. apply wf_pos. exact (la_wf _ _ _ L). Qed.

(** an entry whose pieces need no change *)
Lemma mem_same X d q td lc : (forall p : ent, In (fst p) (rem s t q) -> shift q (st p) = snd q) -> mem X d (q :: td) lc -> mem X (d ++ [q]) td lc.
Proof.
  intros S M p. rewrite (M p). split.
  - intros [(r & I & A & B)|[(r & [<-|I] & A & B)|HX]].
    + left. exists r. split; [apply in_app_iff; auto|auto].
    + left. exists q. split; [apply in_app_iff; cbn; auto|]. split; [exact A|]. rewrite S by exact A. exact B.
    + right. left. exists r. auto.
    + auto.
  - intros [(r & I & A & B)|[(r & I & A & B)|HX]].
    + apply in_app_iff in I as [I|[<-|[]]]; [left; eauto|]. right. left. exists q. split; [cbn; auto|]. split; [exact A|]. rewrite S in B by exact A. exact B.
    + right. left. exists r. cbn. auto.
    + auto.
Qed.
(** an entry whose piece at [t] gets a new base *)
Lemma mem_set (X : ent -> Prop) d q td lc lc' v : (forall p, X p -> fst p <> (t, en q)) -> l = d ++ q :: td -> st q < t < en q -> In (t, en q) (rem s t q) ->
  v = shift q t ->
  (forall b e, In (b, e) (rem s t q) -> (b, e) = (t, en q) \/ b = st q) ->
  (forall p, In p lc' <-> p = ((t, en q), v) \/ (In p lc /\ fst p <> (t, en q))) ->
  mem X d (q :: td) lc -> mem X (d ++ [q]) td lc'.
Proof.
  intros NX EL LT IT EV RR N M p. rewrite (N p), (M p).
  pose proof (la_wf _ _ _ L) as W. rewrite EL in W. apply wf_app in W as (WD & W & DD). apply wf_cons in W as (Pq & WT & FT).
  rewrite Forall_forall in FT.
  assert (ND : forall r, In r d -> In (fst p) (rem s t r) -> fst p <> (t, en q)).
  { intros r I A E. rewrite E in A. pose proof (wf_pos _ _ WD I). apply rem_in in A; auto. specialize (DD r q I (or_introl eq_refl)). lia. }
  assert (NT : forall r, In r td -> In (fst p) (rem s t r) -> fst p <> (t, en q)).
  { intros r I A E. rewrite E in A. pose proof (wf_pos _ _ WT I). apply rem_in in A; auto. specialize (FT r I). lia. }
  split.
  - intros [->|[[(r & I & A & B)|[(r & [<-|I] & A & B)|HX]] NE]].
    + left. exists q. split; [apply in_app_iff; cbn; auto|]. split; [exact IT|]. exact EV.
    + left. exists r. split; [apply in_app_iff; auto|auto].
    + left. exists q. split; [apply in_app_iff; cbn; auto|]. split; [exact A|].
      destruct p as [[b e] w]. cbn [fst] in *. destruct (RR _ _ A) as [E|E]; [congruence|]. unfold st at 1. cbn [fst]. rewrite E, shift_same. exact B.
    + right. left. exists r. auto.
    + auto.
  - intros [(r & I & A & B)|[(r & I & A & B)|HX]].
    + apply in_app_iff in I as [I|[<-|[]]].
      * right. split; [left; eauto|eauto].
      * destruct p as [[b e] w]. cbn [fst] in *. destruct (RR _ _ A) as [E|E].
        -- left. rewrite E. f_equal. rewrite EV. unfold st in B at 1. cbn in B. injection E as -> ->. exact B.
        -- right. split; [|intros E2; injection E2 as -> ->; lia]. right. left. exists q. split; [cbn; auto|]. split; [exact A|].
           unfold st in B at 1. cbn [fst] in B. rewrite E, shift_same in B. exact B.
    + right. split; [right; left; exists r; cbn; auto|eauto].
    + right. split; [auto|eauto].
Qed.

Lemma in_cur X d q td lc i : mem X d (q :: td) lc -> In i (rem s t q) -> In (i, snd q) lc.
Proof. intros M I. apply M. right. left. exists q. cbn. auto. Qed.

Lemma unmap_all : forall td d lc k, l = d ++ td -> WF lc -> mem nox d td lc -> kinv d k ->
  exists lc' k', unmap_mutations (k, of_list lc) (flat_map (report s t) td) = Some (k', of_list lc') /\
    WF lc' /\ mem nox l [] lc' /\ kinv l k'.
Proof.
  induction td as [|q td IH]; intros d lc k EL W M K.
  { rewrite app_nil_r in EL. subst d. exists lc, k. cbn. auto. }
  assert (IQ : In q l) by (rewrite EL; apply in_app_iff; cbn; auto).
  assert (EL' : l = (d ++ [q]) ++ td) by (now rewrite <- app_assoc).
  cbn [flat_map]. pose proof (touches_ok s t ST q (pos q IQ)) as T.
  destruct T as [O R|A B R|A B C R|A B C R|A B R]; cbn [app unmap_mutations].
  - (* untouched *)
    apply (IH (d ++ [q])); auto.
    + apply mem_same; auto. intros p I. rewrite R in I. destruct I as [E|[]]. unfold st at 1. rewrite <- E. apply shift_same.
    + apply kinv_same; auto. intros x. apply not_true_iff_false. rewrite own_iff. lia.
  - (* split *)
    pose proof (in_cur _ _ _ _ _ (st q, s) M ltac:(rewrite R; cbn; auto)) as I1.
    pose proof (in_cur _ _ _ _ _ (t, en q) M ltac:(rewrite R; cbn; auto)) as I2.
    cbn [unmap1]. unfold im_get1. rewrite (get1_ok lc _ (st q) W I1) by (unfold st, en in *; cbn; lia). ob.
    rewrite (get1_ok lc _ t W I2) by (unfold st, en in *; cbn; lia). ob. cbn [snd].
    destruct (Z.eqb_spec (base q) 0) as [Z0|Z0].
    + ob. apply (IH (d ++ [q])); auto.
      * apply mem_same; auto. intros p _. now apply shift_null.
      * apply kinv_same; auto. intros x. apply not_true_iff_false. rewrite own_iff. tauto.
    + unfold shm_dealloc. rewrite assert_true by lia. ob.
      destruct (set_ok lc t _ (with_base (base q + (t - st q)) (snd q)) W I2) as (lc' & E & W' & N); [unfold st, en in *; cbn; lia|].
      rewrite E. ob. apply (IH (d ++ [q])); auto.
      * eapply mem_set with (v := shift q t); [tauto|exact EL|lia|rewrite R; cbn; auto|reflexivity| | |exact M].
        -- intros b e J. rewrite R in J. destruct J as [J|[J|[]]]; injection J as <- <-; auto.
        -- intros p. rewrite (N p). cbn [fst]. unfold shift. destruct (Z.eqb_spec (base q) 0); [lia|]. tauto.
      * apply kill_ok; auto; lia.
  - (* end *)
    pose proof (in_cur _ _ _ _ _ (st q, s) M ltac:(rewrite R; cbn; auto)) as I1.
    cbn [unmap1]. unfold im_get1. rewrite (get1_ok lc _ (st q) W I1) by (unfold st, en in *; cbn; lia). ob. cbn [snd].
    assert (MS : mem nox (d ++ [q]) td lc).
    { apply mem_same; auto. intros p I. rewrite R in I. destruct I as [E|[]]. unfold st at 1. rewrite <- E. cbn. apply shift_same. }
    destruct (Z.eqb_spec (base q) 0) as [Z0|Z0].
    + ob. apply (IH (d ++ [q])); auto. apply kinv_same; auto. intros x. apply not_true_iff_false. rewrite own_iff. tauto.
    + unfold shm_dealloc. rewrite assert_true by lia. ob. apply (IH (d ++ [q])); auto. apply kill_ok; auto; lia.
  - (* begin *)
    pose proof (in_cur _ _ _ _ _ (t, en q) M ltac:(rewrite R; cbn; auto)) as I2.
    cbn [unmap1]. unfold im_get1. rewrite (get1_ok lc _ t W I2) by (unfold st, en in *; cbn; lia). ob. cbn [snd].
    destruct (Z.eqb_spec (base q) 0) as [Z0|Z0].
    + ob. apply (IH (d ++ [q])); auto.
      * apply mem_same; auto. intros p _. now apply shift_null.
      * apply kinv_same; auto. intros x. apply not_true_iff_false. rewrite own_iff. tauto.
    + unfold shm_dealloc. rewrite assert_true by lia. ob.
      destruct (set_ok lc t _ (with_base (base q + (t - st q)) (snd q)) W I2) as (lc' & E & W' & N); [unfold st, en in *; cbn; lia|].
      rewrite E. ob. apply (IH (d ++ [q])); auto.
      * eapply mem_set with (v := shift q t); [tauto|exact EL|lia|rewrite R; cbn; auto|reflexivity| | |exact M].
        -- intros b e J. rewrite R in J. destruct J as [J|[]]; injection J as <- <-; auto.
        -- intros p. rewrite (N p). cbn [fst]. unfold shift. destruct (Z.eqb_spec (base q) 0); [lia|]. tauto.
      * apply kill_ok; auto; lia.
  - (* removed *)
    cbn [unmap1]. assert (MS : mem nox (d ++ [q]) td lc).
    { apply mem_same; auto. intros p I. rewrite R in I. destruct I. }
    destruct (Z.eqb_spec (base q) 0) as [Z0|Z0].
    + ob. apply (IH (d ++ [q])); auto. apply kinv_same; auto. intros x. apply not_true_iff_false. rewrite own_iff. tauto.
    + pose proof (pos q IQ). unfold shm_dealloc. rewrite assert_true by lia. ob. apply (IH (d ++ [q])); auto. apply kill_ok; auto; lia.
Qed.
End Un.

(** Clearing a range: regions lose it, Shadow unmaps it, the file is zero there. *)
Lemma clear_ok s t G k l : s < t -> aligned s -> aligned t -> lay G k l ->
  exists k' l', clear_unmap s t k (of_list l) = Some (k', of_list l') /\ lay G k' l' /\
    (forall p, In p l' <-> exists q, In q l /\ In (fst p) (rem s t q) /\ snd p = shift q (st p)) /\
    k_plug k' = k_plug k /\ k_obj k' = k_obj k /\ k_flen k' = k_flen k /\
    (forall x, k_file k' x = if inr s t x && negb (G x) then 0 else k_file k x) /\
    (forall y p x, k_shad k' y = Some (p, x) <-> k_shad k y = Some (p, x) /\ inr s t x && negb (G x) = false).
Proof.
  intros ST AS AT L. pose proof (la_wf _ _ _ L) as W.
  destruct (step_ok l (IClear s t) W ST) as (lc & E & WC & M). cbn [op_range op_value fst snd im_step] in *.
  unfold clear_unmap. rewrite E. ob.
  destruct (unmap_all s t ST AS AT G k l L l [] lc k eq_refl WC) as (l' & k' & E' & W' & M' & [K1 K2 K3 K4 K5]).
  { intros p. rewrite (M p). split.
    - intros [(v & X & _)|(q & A & B & C)]; [discriminate|]. right. left. exists q. auto.
    - intros [(q & [] & _)|[(q & A & B & C)|[]]]. right. exists q. auto. }
  { split; auto. intros y. cbn. destruct (k_shad k y) as [[p x]|]; reflexivity. }
  rewrite E'. exists k', l'. split; [reflexivity|].
  assert (MM : forall p, In p l' <-> exists q, In q l /\ In (fst p) (rem s t q) /\ snd p = shift q (st p)).
  { intros p. rewrite (M' p). split; [intros [H|[(q & [] & _)|[]]]; exact H|auto]. }
  assert (HIT : forall x, hit s t l x = true <-> exists q, In q l /\ base q <> 0 /\ st q <= x < en q /\ s <= x < t).
  { intros x. unfold hit. rewrite existsb_exists. split; intros (q & I & H); exists q; (split; [exact I|]); apply own_iff in H || apply own_iff; exact H. }
  assert (KF : forall x, k_file k' x = if inr s t x && negb (G x) then 0 else k_file k x).
  { intros x. rewrite K4. destruct (hit s t l x) eqn:H.
    - apply HIT in H as (q & I & _ & X & H). apply inr_iff in H. now rewrite H, (la_out _ _ _ L q x I X).
    - destruct (inr s t x) eqn:H2; [|reflexivity]. destruct (G x) eqn:HG; [reflexivity|]. apply inr_iff in H2. cbn. destruct (Z.eq_dec (k_file k x) 0) as [Z0|Z0]; [exact Z0|].
      destruct (la_zero _ _ _ L x Z0 HG) as (q & I & B & C). assert (X : hit s t l x = true) by (apply HIT; exists q; auto). congruence. }
  assert (KS : forall y p x, k_shad k' y = Some (p, x) <-> k_shad k y = Some (p, x) /\ inr s t x && negb (G x) = false).
  { intros y p x. rewrite K5. destruct (k_shad k y) as [[p1 x1]|] eqn:Q; [|split; [discriminate|intros [X _]; discriminate]].
    destruct (hit s t l x1) eqn:H.
    - split; [discriminate|]. intros [[= <- <-] N]. apply HIT in H as (q & I & _ & X & H). apply inr_iff in H. rewrite H, (la_out _ _ _ L q x1 I X) in N. discriminate.
    - split; [|tauto]. intros [= <- <-]. split; [reflexivity|]. destruct (inr s t x1) eqn:H2; [|reflexivity]. apply inr_iff in H2.
      destruct (G x1) eqn:HG; [reflexivity|]. destruct (la_rev _ _ _ L _ _ _ Q HG) as (q & I & B & C & D).
      assert (X : hit s t l x1 = true) by (apply HIT; exists q; auto). congruence. }
  assert (SB : forall q b, base q <> 0 -> r_base (shift q b) = base q + (b - st q)).
  { intros q b NB. unfold shift. destruct (Z.eqb_spec (base q) 0); [contradiction|]. reflexivity. }
  assert (PIECE : forall p, In p l' -> exists q, In q l /\ In (fst p) (rem s t q) /\ snd p = shift q (st p) /\
            st q <= st p /\ st p < en p /\ en p <= en q /\ (en p <= s \/ t <= st p) /\ (st p = st q \/ st p = t)).
  { intros p I. apply MM in I as (q & I & A & B). exists q. split; [exact I|]. split; [exact A|]. split; [exact B|].
    destruct p as [[b e] v]. unfold st at 2 3 5 6, en at 1 2 4. cbn [fst snd] in *. apply (rem_in s t ST) in A; [exact A|exact (wf_pos _ _ W I)]. }
  assert (COV : forall q x, In q l -> st q <= x < en q -> ~ (s <= x < t) -> exists p, In p l' /\ st p <= x < en p /\ snd p = shift q (st p)).
  { intros q x I X N. destruct (rem_cover s t ST q x X N) as (b & e & J & LX). exists ((b, e), shift q b).
    split; [|split; [exact LX|reflexivity]]. apply MM. exists q. auto. }
  assert (NBS : forall q b, r_base (shift q b) <> 0 -> base q <> 0).
  { intros q b N Z0. rewrite shift_null in N by exact Z0. contradiction. }
  split; [|auto 10]. split.
  - exact W'.
  - intros p I. destruct (PIECE p I) as (q & J & A & B & C1 & C2 & C3 & C4 & C5). destruct (la_al _ _ _ L q J) as (X1 & X2 & X3 & X4).
    assert (aligned (st p)) by (destruct C5 as [-> | ->]; auto).
    assert (aligned (en p)).
    { destruct p as [[b e] v]. unfold rem, remainder in A. cbn [fst] in A. apply in_app_iff in A as [A|A].
      - destruct (st q <? Z.min (en q) s); [|destruct A]. destruct A as [A|[]]. injection A as <- <-. unfold en at 1. cbn.
        destruct (Z.min_spec (en q) s) as [[_ ->]|[_ ->]]; auto.
      - destruct (Z.max (st q) t <? en q); [|destruct A]. destruct A as [A|[]]. injection A as <- <-. exact X2. }
    repeat split; auto; lia.
  - intros p I NB. destruct (PIECE p I) as (q & J & A & B & C1 & C2 & C3 & C4 & C5). rewrite B in NB |- *.
    pose proof (NBS _ _ NB) as NQ. rewrite SB in * by exact NQ. destruct (la_shm _ _ _ L q J NQ) as (Y1 & Y2 & Y3 & Y4).
    destruct (la_al _ _ _ L q J) as (X1 & X2 & X3 & X4).
    split; [|split; [lia|split; [lia|]]].
    + apply al_add; auto. apply al_sub; auto. destruct C5 as [-> | ->]; auto.
    + unfold shift. destruct (base q =? 0); exact Y4.
  - intros p I PH. destruct (PIECE p I) as (q & J & A & B & C1 & _). rewrite B in PH |- *.
    assert (NQ : base q <> 0). { apply (la_heap _ _ _ L q J). unfold shift in PH. destruct (base q =? 0); exact PH. }
    rewrite SB by exact NQ. destruct (la_shm _ _ _ L q J NQ) as (_ & Y2 & _). lia.
  - intros p x I NB X. destruct (PIECE p I) as (q & J & A & B & C1 & C2 & C3 & C4 & C5). rewrite B in NB |- *.
    pose proof (NBS _ _ NB) as NQ. rewrite SB by exact NQ. replace (base q + (st p - st q) + (x - st p)) with (base q + (x - st q)) by lia.
    apply KS. split; [|destruct (inr s t x) eqn:HH; [apply inr_iff in HH; lia|reflexivity]]. replace (r_prot (shift q (st p))) with (r_prot (snd q)).
    + apply (la_map _ _ _ L q x J NQ). lia.
    + unfold shift. destruct (base q =? 0); reflexivity.
  - intros y p x E1 HG. apply KS in E1 as [E1 N]. rewrite HG, andb_true_r in N. apply inr_no in N. destruct (la_rev _ _ _ L _ _ _ E1 HG) as (q & I & NB & C & D).
    destruct (COV q x I C N) as (p2 & I2 & X2 & B2). exists p2. rewrite B2, SB by exact NB.
    destruct (PIECE p2 I2) as (q2 & J & A & B & C1 & C2 & C3 & C4 & C5).
    assert (q2 = q) by (apply (wf_unique l q2 q x W J I); lia). subst q2.
    destruct (la_shm _ _ _ L q I NB) as (_ & Y2 & _).
    split; [exact I2|]. split; [lia|]. split; [exact X2|lia].
  - intros x NZ HG. rewrite KF, HG, andb_true_r in NZ. destruct (inr s t x) eqn:H; [contradiction|]. apply inr_no in H.
    destruct (la_zero _ _ _ L x NZ HG) as (q & I & NB & C). destruct (COV q x I C H) as (p2 & I2 & X2 & B2). exists p2.
    split; [exact I2|]. split; [|exact X2]. rewrite B2, SB by exact NB.
    destruct (PIECE p2 I2) as (q2 & J & A & B & C1 & C2 & C3 & C4 & C5).
    assert (q2 = q) by (apply (wf_unique l q2 q x W J I); lia). subst q2.
    destruct (la_shm _ _ _ L q I NB) as (_ & Y2 & _). lia.
  - intros p x I X. destruct (PIECE p I) as (q & J & A & B & C1 & C2 & C3 & C4 & C5). apply (la_out _ _ _ L q x J). lia.
Qed.

(** Inserting into a hole. *)
Lemma insert_ok s t r (l : list ent) : s < t -> WF l -> (forall p, In p l -> en p <= s \/ t <= st p) ->
  exists l', im_insert (of_list l) s t r = Some (of_list l', []) /\ WF l' /\ (forall p, In p l' <-> p = ((s, t), r) \/ In p l).
Proof.
  intros ST W N. destruct (step_ok l (IInsert s t r) W ST) as (l' & E & W' & M). cbn [op_range op_value fst snd im_step] in *.
  exists l'. rewrite E. split; [|split; [exact W'|]].
  - f_equal. f_equal. revert N. clear. induction l as [|q l IH]; intros N; [reflexivity|]. cbn [flat_map].
    rewrite IH by (intros; apply N; cbn; auto). rewrite app_nil_r. destruct q as [[b e] v]. cbn [report].
    specialize (N _ (or_introl eq_refl)). unfold st, en in N. cbn in N.
    destruct (Z.leb_spec e s); [reflexivity|]. destruct (Z.leb_spec t b); [reflexivity|lia].
  - intros p. rewrite (M p). split.
    + intros [(v & [= <-] & ->)|(q & I & A & B)]; [auto|]. right. specialize (N q I). pose proof (wf_pos _ _ W I).
      pose proof (touches_ok s t ST q H) as T. destruct T; try lia.
      unfold rem, st, en in *. rewrite H1 in A. destruct A as [A|[]]. destruct p, q. cbn in *. subst. exact I.
    + intros [->|I]; [left; eauto|]. right. exists p. split; [exact I|]. split; [|reflexivity].
      specialize (N p I). pose proof (wf_pos _ _ W I). pose proof (touches_ok s t ST p H) as T. destruct T; try lia.
      unfold rem, st, en in *. rewrite H1. cbn. auto.
Qed.
