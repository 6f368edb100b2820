(** brk keeps the relation. *)
From Verif Require Import Base IntervalModel IntervalSpec IntervalProofs MemKernel MemModel MemSpec MemLayout MemUnmap MemProtect MemRel MemSteps MemGrow MemRemap.

Section Brk.
Variables (top : Z) (s : state) (n : native) (l : list ent) (req b hs he : Z).
Hypothesis R : rel top s n l.
Hypothesis EH : n_heap n = (hs, he).
Hypothesis WR : aligned req.
Notation k := (s_k s).

Lemma heap_al : aligned hs /\ aligned he /\ 0 < hs <= he.
Proof. pose proof (re_hal _ _ _ _ R) as H. rewrite EH in H. exact H. Qed.

(** what the areas become when nothing but the heap is at [hs, req) *)
Lemma areas_grow l3 r3 : kind r3 = KHeap -> hs < req ->
  (forall q, In q l -> (hs <= st q /\ en q <= req) \/ en q <= hs \/ req <= st q) ->
  (forall p, In p l3 <-> p = ((hs, req), r3) \/ (In p l /\ (en p <= hs \/ req <= st p))) ->
  areas_ok (((hs, req), KHeap) :: cut hs req (n_areas n)) l3.
Proof.
  intros KR LT OUT M i d. cbn [In]. rewrite in_cut. pose proof (la_wf _ _ _ (re_lay _ _ _ _ R)) as W. split.
  - intros [E|(b0 & e0 & I & J)].
    + injection E as <- <-. exists r3. split; [apply M; auto|exact KR].
    + apply (re_areas _ _ _ _ R) in I as (r & I & K). pose proof (wf_pos _ _ W I) as P. change (In i (rem hs req ((b0, e0), r))) in J.
      destruct (OUT _ I) as [[O1 O2]|O].
      * rewrite rem_all in J by assumption. destruct J.
      * rewrite rem_out in J by assumption. destruct J as [<-|[]]. exists r. split; [apply M; right; auto|exact K].
  - intros (r & I & K). apply M in I as [E|[I O]].
    + injection E as -> ->. left. now rewrite <- K, KR.
    + right. destruct i as [b0 e0]. exists b0, e0. split; [apply (re_areas _ _ _ _ R); eauto|].
      change (In (b0, e0) (rem hs req ((b0, e0), r))). rewrite rem_out; [cbn; auto|exact LT|exact (wf_pos _ _ W I)|exact O].
Qed.

Lemma pl_grow k3 l3 r3 : r_base r3 <> 0 -> hs < req ->
  (forall q, In q l -> (hs <= st q /\ en q <= req) \/ en q <= hs \/ req <= st q) ->
  (forall p, In p l3 <-> p = ((hs, req), r3) \/ (In p l /\ (en p <= hs \/ req <= st p))) ->
  (forall x, hs <= x < req -> k_plug k3 x = Some (r_prot r3, CShm x)) ->
  (forall x, ~ (hs <= x < req) -> k_plug k3 x = k_plug k x) -> pl k3 l3.
Proof.
  intros NB LT OUT M C1 C2. apply (pl_step k k3 l l3 (fun x => ~ (hs <= x < req)) (fun p => p = ((hs, req), r3))); auto.
  - exact (re_pl _ _ _ _ R).
  - intros p I. apply M in I as [->|[I O]]; [auto|]. right. exists p. split; [exact I|]. split; [reflexivity|]. split; [tauto|]. intros x X. lia.
  - intros p x _ -> X. cbn. destruct (Z.eqb_spec (r_base r3) 0); [contradiction|]. apply C1. exact X.
  - intros x X. destruct (inr_dec hs req x) as [H|H].
    + left. exists ((hs, req), r3). split; [apply M; auto|exact H].
    + right. split; [exact H|]. intros q I XQ. exists q. split; [|exact XQ]. apply M. right. split; [exact I|]. destruct (OUT q I) as [O|O]; [lia|exact O].
Qed.

(** an insertion over the heap only *)
Lemma insert_over r3 : hs < req -> (forall q, In q l -> (hs <= st q /\ en q <= req) \/ en q <= hs \/ req <= st q) ->
  exists l3 mu, im_insert (of_list l) hs req r3 = Some (of_list l3, mu) /\ WF l3 /\
    (forall p, In p l3 <-> p = ((hs, req), r3) \/ (In p l /\ (en p <= hs \/ req <= st p))).
Proof.
  intros LT OUT. pose proof (la_wf _ _ _ (re_lay _ _ _ _ R)) as W.
  destruct (step_ok l (IInsert hs req r3) W LT) as (l3 & E & W3 & M). cbn [op_range op_value fst snd im_step] in *.
  exists l3, (flat_map (report hs req) l). split; [exact E|]. split; [exact W3|]. intros p. rewrite (M p). split.
  - intros [(v & [= <-] & ->)|(q & I & A & B)]; [auto|]. right. pose proof (wf_pos _ _ W I) as P. change (In (fst p) (rem hs req q)) in A. destruct (OUT q I) as [[O1 O2]|O].
    + rewrite rem_all in A by assumption. destruct A.
    + rewrite rem_out in A by assumption. destruct A as [A|[]]. assert (p = q) by (destruct p, q; cbn in *; congruence). subst p. auto.
  - intros [->|[I O]]; [left; eauto|]. right. exists p. split; [exact I|]. split; [|reflexivity].
    change (In (fst p) (rem hs req p)). rewrite rem_out; [cbn; auto|exact LT|exact (wf_pos _ _ W I)|exact O].
Qed.

Lemma brk_first : hs = he -> he < req -> req <= top -> unmapped (n_k n) (rup he) (rup req) -> rup req <= TASK_SIZE ->
  shadow_place k b hs (req - hs) hs he -> follows top s n (OBrk req true b).
Proof.
  intros EQ LT TP UM TS (AB & B0 & PL). destruct heap_al as (A1 & A2 & A3). rewrite (rup_whole he A2), (rup_whole req WR) in *.
  pose proof (al_sub _ _ WR A1) as AL. rewrite (rup_whole (req - hs) AL) in PL. pose proof task_max as TM.
  pose proof R as [R1 R2 R3 R4 R5 R6 R7 R8 R9]. pose proof (la_wf _ _ _ R2) as W.
  assert (FREE : forall q x, In q l -> st q <= x < en q -> ~ (hs <= x < req)).
  { intros q x I X H. apply (unmapped_out top s n l he req R UM q x I X). lia. }
  assert (OUT : forall q, In q l -> en q <= hs \/ req <= st q) by (apply unmapped_free; auto; lia).
  unfold follows. cbn [step native_step]. unfold handle_brk, n_brk. rewrite R4, EH. cbn [fst snd].
  rewrite (proj2 (Z.ltb_ge req hs)) by lia. cbn [orb negb].
  rewrite assert_true by (apply Z.eqb_eq; exact WR). destruct (Z.eqb_spec req he); [lia|].
  rewrite R1, (get1_none l hs W) by (intros q I X; apply (FREE q hs I X); lia). ob.
  rewrite (proj2 (Z.ltb_lt he req)) by lia. rewrite (proj2 (Z.leb_le he req)) by lia. rewrite assert_true by lia. ob.
  set (r3 := mkReg b HEAP_PROT false (Some PHeap)).
  destruct (insert_over r3 ltac:(lia)) as (l3 & mu & E3 & W3 & M3); [intros q I; right; auto|]. rewrite E3. ob.
  eexists _, l3. split; [reflexivity|].
  destruct (alloc_same req k) as (K1 & K2 & K3 & K4 & K5 & K6). set (ka := shm_alloc req k) in *.
  unfold mmap_into_shadow, mmap_into_plugin, s_mmap. rewrite (rup_whole (req - hs) AL). replace (hs + (req - hs)) with req by lia.
  replace (b + (req - hs)) with (b + (req - hs)) in * by reflexivity.
  split; cbn [s_m s_k mm_regs mm_heap n_heap n_k n_areas fst snd].
  - reflexivity.
  - apply (lay_put none k _ l l3 hs req r3 b); auto; cbn; try lia.
    + intros p. rewrite (M3 p). split; [tauto|]. intros [->|I]; auto.
    + intros y Y. rewrite over_in by lia. reflexivity.
    + intros y Y p x. rewrite over_out by lia. rewrite K1. tauto.
    + intros y Y p x E. exfalso. destruct (la_rev _ _ _ R2 _ _ _ E eq_refl) as (q & I & _ & X & _). apply (FREE q x I X).
      destruct (PL y ltac:(lia)) as [H|[(p2 & H)|(p2 & x2 & H & HX & _)]]; rewrite E in H; [discriminate|injection H as <- ->; lia|injection H as <- ->; lia].
    + intros x X. rewrite K2 in X. auto.
  - apply (pl_grow _ l3 r3); auto; cbn; try lia.
    + intros x X. rewrite over_in by exact X. do 3 f_equal. lia.
    + intros x X. rewrite over_out by exact X. now rewrite K3.
  - reflexivity.
  - split; [exact A1|]. split; [exact WR|lia].
  - cbn. lia.
  - intros x. cbn. rewrite (rup_whole he A2), (rup_whole req WR). destruct (inr_dec hs req x) as [H|H].
    + rewrite over_in by lia. unfold view. cbn. rewrite over_in by exact H. cbn. replace (hs + (x - hs)) with x by lia. rewrite K2.
      destruct (Z.eq_dec (k_file k x) 0) as [->|NZ]; [reflexivity|]. destruct (la_zero _ _ _ R2 x NZ eq_refl) as (q & I & _ & X). destruct (FREE q x I X H).
    + rewrite over_out by lia. rewrite R7. symmetry. apply view_same; cbn; [rewrite over_out by exact H; now rewrite K3|now rewrite K2|eapply shm_at; exact R3].
  - cbn. now rewrite K4.
  - apply (areas_grow l3 r3); auto. lia.
Qed.

Section Has.
Variable r : region.
Hypothesis IQ : In ((hs, he), r) l.
Hypothesis KR : kind r = KHeap.
Notation q := ((hs, he), r).

Lemma has : r_path r = Some PHeap /\ r_base r <> 0 /\ hs < he /\ aligned (r_base r) /\ 0 < r_base r /\ he <= k_flen k /\
  (forall y, r_base r <= y < r_base r + (he - hs) -> k_shad k y = Some (r_prot r, hs + (y - r_base r))) /\
  (forall y p x, k_shad k y = Some (p, x) -> hs <= x < he -> y = r_base r + (x - hs)) /\
  (forall x, hs <= x < he -> k_plug k x = Some (r_prot r, CShm x)) /\
  (forall p, In p l -> p = q \/ en p <= hs \/ he <= st p).
Proof.
  pose proof (re_lay _ _ _ _ R) as L. pose proof (la_wf _ _ _ L) as W.
  assert (PH : r_path r = Some PHeap) by (unfold kind in KR; destruct (r_path r) as [[| |]|]; congruence).
  pose proof (la_heap _ _ _ L q IQ PH) as NB. cbn in NB. destruct (la_shm _ _ _ L q IQ NB) as (A & B & C & _). unfold en in C. cbn in A, B, C.
  pose proof (wf_pos _ _ W IQ) as P. unfold st, en in P. cbn in P. repeat (split; [assumption|]). split; [|split; [|split]].
  - intros y Y. pose proof (la_map _ _ _ L q (hs + (y - r_base r)) IQ NB) as M. unfold st, en in M. cbn in M.
    replace (r_base r + (hs + (y - r_base r) - hs)) with y in M by lia. apply M. lia.
  - intros y p x E X. destruct (la_rev _ _ _ L _ _ _ E eq_refl) as (q' & I' & _ & X' & ->).
    assert (q' = q) by (apply (wf_unique l q' q x W I' IQ); [exact X'|exact X]). subst q'. reflexivity.
  - intros x X. exact (pl_shm _ _ (re_pl _ _ _ _ R) q x IQ NB X).
  - intros p I. destruct (Z.eq_dec (st p) hs) as [E|E].
    + left. apply (wf_unique l p q hs W I IQ); [pose proof (wf_pos _ _ W I); lia|unfold st, en; cbn; lia].
    + right. apply (others_out l q p W IQ I). intros ->. apply E. reflexivity.
Qed.

Lemma brk_grow : he < req -> req <= top -> (forall x, hs <= x < he -> exists c, k_plug (n_k n) x = Some (RW, c)) ->
  unmapped (n_k n) (rup he) (rup req) -> rup req <= TASK_SIZE ->
  shadow_place k b hs (req - hs) hs he -> follows top s n (OBrk req true b).
Proof.
  intros LT TP PRW UM TS (AB & B0 & PL). destruct heap_al as (A1 & A2 & A3). rewrite (rup_whole he A2), (rup_whole req WR) in *.
  destruct has as (PH & NB & HLT & BA & BP & FL & SH & REV & PS & OTH).
  pose proof (al_sub _ _ WR A1) as AL. pose proof (al_sub _ _ A2 A1) as AL2. rewrite (rup_whole (req - hs) AL) in PL. pose proof task_max as TM.
  pose proof R as [R1 R2 R3 R4 R5 R6 R7 R8 R9]. pose proof (la_wf _ _ _ R2) as W.
  assert (FREE : forall q' x, In q' l -> st q' <= x < en q' -> ~ (he <= x < req)).
  { intros q' x I X. exact (unmapped_out top s n l he req R UM q' x I X). }
  assert (OUT1 : forall q', In q' l -> en q' <= he \/ req <= st q') by (apply unmapped_free; auto).
  assert (OUT : forall q', In q' l -> (hs <= st q' /\ en q' <= req) \/ en q' <= hs \/ req <= st q').
  { intros q' I. destruct (OTH q' I) as [-> | O]; [left; unfold st, en; cbn; lia|]. destruct (OUT1 q' I); [|auto]. pose proof (wf_pos _ _ W I). lia. }
  assert (RWr : r_prot r = RW).
  { destruct (PRW hs ltac:(lia)) as [c E]. rewrite R7 in E. unfold view in E. rewrite (PS hs) in E by lia. cbn in E. congruence. }
  unfold follows. cbn [step native_step]. unfold handle_brk, n_brk. rewrite R4, EH. cbn [fst snd].
  rewrite (proj2 (Z.ltb_ge req hs)) by lia. cbn [orb negb].
  rewrite assert_true by (apply Z.eqb_eq; exact WR). destruct (Z.eqb_spec req he); [lia|].
  rewrite R1, (get1_ok l q hs W IQ) by (unfold st, en; cbn; lia). ob.
  rewrite (proj2 (Z.ltb_lt he req)) by lia. rewrite (proj2 (Z.leb_le he req)) by lia. rewrite assert_true by reflexivity. ob.
  set (r3 := mkReg b HEAP_PROT false (Some PHeap)).
  destruct (insert_over r3 ltac:(lia) OUT) as (l3 & mu & E3 & W3 & M3). rewrite E3. ob.
  eexists _, l3. split; [reflexivity|].
  destruct (alloc_same he k) as (K1 & K2 & K3 & K4 & K5 & K6). set (ka := shm_alloc he k) in *.
  set (kb := k_mremap hs (he - hs) (req - hs) hs ka).
  assert (KB : k_shad kb = k_shad k /\ k_file kb = k_file k /\ k_flen kb = k_flen ka /\ k_obj kb = k_obj k /\
     k_plug kb = over hs req (fun x => if x - hs <? he - hs then k_plug k (x - hs + hs) else Some (r_prot r, CShm (hs + (x - hs)))) (over hs he (fun _ => None) (k_plug k))).
  { unfold kb, k_mremap. rewrite K3, (PS hs) by lia. cbn. rewrite (rup_whole (req - hs) AL), (rup_whole (he - hs) AL2).
    replace (hs + (req - hs)) with req by lia. replace (hs + (he - hs)) with he by lia. auto. }
  destruct KB as (KB1 & KB2 & KB3 & KB4 & KB5).
  unfold s_mremap. rewrite KB1, (SH (r_base r)) by lia. rewrite (rup_whole (req - hs) AL), (rup_whole (he - hs) AL2).
  set (k3 := set_shad _ kb). change (r_base r + (he - hs)) with (r_base r + (he - hs)) in *.
  assert (P3 : forall x, hs <= x < req -> k_plug k3 x = Some (RW, CShm x)).
  { intros x X. unfold k3. cbn. rewrite KB5, over_in by exact X. rewrite <- RWr. destruct (Z.ltb_spec (x - hs) (he - hs)).
    - replace (x - hs + hs) with x by lia. apply PS. lia.
    - do 3 f_equal. lia. }
  assert (P4 : forall x, ~ (hs <= x < req) -> k_plug k3 x = k_plug k x).
  { intros x X. unfold k3. cbn. rewrite KB5, over_out by exact X. apply over_out. lia. }
  assert (FZ : forall x, he <= x < req -> k_file k x = 0).
  { intros x X. destruct (Z.eq_dec (k_file k x) 0) as [E|NZ]; [exact E|]. destruct (la_zero _ _ _ R2 x NZ eq_refl) as (q' & I & _ & X'). destruct (FREE q' x I X' X). }
  assert (GB : forall y p x, k_shad k y = Some (p, x) -> (hs <= x < he <-> r_base r <= y < r_base r + (he - hs))).
  { intros y p x E. split; intros X; [rewrite (REV y p x E X); lia|]. rewrite (SH y X) in E. injection E as _ <-. lia. }
  split; cbn [s_m s_k mm_regs mm_heap n_heap n_k n_areas fst snd].
  - reflexivity.
  - destruct (take_out l q W IQ) as (l0 & _ & W0 & M0).
    apply (lay_put (inr hs he) k k3 l0 l3 hs req r3 b); auto; cbn; try lia.
    + exact (lay_drop k l l0 q R2 IQ W0 M0).
    + intros p. rewrite (M3 p), (M0 p). split.
      * intros [->|[I O]]; [auto|]. right. split; [exact I|]. intros E. unfold st, en in O. rewrite E in O. cbn in O. lia.
      * intros [->|[I N]]; [auto|]. right. split; [exact I|]. destruct (OTH p I) as [-> | O]; [now destruct N|]. destruct (OUT p I) as [O2|O2]; [pose proof (wf_pos _ _ W I); pose proof (OUT1 p I); lia|exact O2].
    + intros y Y. rewrite over_in by lia. rewrite RWr. change HEAP_PROT with RW. destruct (Z.ltb_spec (y - b) (he - hs)).
      * rewrite SH by lia. rewrite RWr. do 2 f_equal. lia.
      * do 2 f_equal. lia.
    + intros y Y p x. rewrite over_out by lia. rewrite ?KB1. destruct (inr_dec (r_base r) (r_base r + (he - hs)) y) as [H|H].
      * rewrite over_in by exact H. split; [discriminate|]. intros [E NG]. apply (GB _ _ _ E) in H. apply inr_iff in H. congruence.
      * rewrite over_out by exact H. split; [|tauto]. intros E. split; [exact E|]. apply inr_no. intros X. apply (GB _ _ _ E) in X. contradiction.
    + intros y Y p x E. apply inr_iff.
      destruct (la_rev _ _ _ R2 _ _ _ E eq_refl) as (q' & I' & _ & X' & _). pose proof (FREE q' x I' X').
      destruct (PL y ltac:(lia)) as [H1|[(p2 & H1)|(p2 & x2 & H1 & HX & HN)]]; rewrite E in H1; [discriminate|injection H1 as <- ->; lia|injection H1 as <- <-; lia].
    + intros x X. rewrite KB2 in X. destruct (inr_dec hs he x) as [H|H]; [right; lia|]. left. split; [exact X|]. now apply inr_no.
  - apply (pl_grow k3 l3 r3); auto; cbn; try lia.
  - reflexivity.
  - split; [exact A1|]. split; [exact WR|lia].
  - cbn. lia.
  - intros x. cbn. rewrite (rup_whole he A2), (rup_whole req WR). destruct (inr_dec he req x) as [H|H].
    + rewrite over_in by exact H. unfold view. rewrite P3 by lia. cbn. rewrite KB2, FZ by exact H. reflexivity.
    + rewrite over_out by exact H. rewrite R7. symmetry. apply view_same; [|cbn; now rewrite KB2|eapply shm_at; exact R3].
      destruct (inr_dec hs req x) as [H2|H2]; [|auto]. rewrite P3 by exact H2. rewrite PS, RWr by lia. reflexivity.
  - cbn. now rewrite KB4.
  - apply (areas_grow l3 r3); auto. lia.
Qed.

Lemma brk_shrink : hs < req < he -> follows top s n (OBrk req true b).
Proof.
  intros LT. destruct heap_al as (A1 & A2 & A3).
  destruct has as (PH & NB & HLT & BA & BP & FL & SH & REV & PS & OTH).
  pose proof (al_sub _ _ WR A1) as AL. pose proof (al_sub _ _ A2 A1) as AL2.
  pose proof R as [R1 R2 R3 R4 R5 R6 R7 R8 R9]. pose proof (la_wf _ _ _ R2) as W.
  unfold follows. cbn [step native_step]. unfold handle_brk, n_brk. rewrite R4, EH. cbn [fst snd].
  rewrite (proj2 (Z.ltb_ge req hs)) by lia. cbn [orb negb].
  rewrite assert_true by (apply Z.eqb_eq; exact WR). destruct (Z.eqb_spec req he); [lia|].
  rewrite R1, (get1_ok l q hs W IQ) by (unfold st, en; cbn; lia). ob.
  rewrite (proj2 (Z.ltb_ge he req)) by lia. rewrite (proj2 (Z.leb_gt he req)) by lia. rewrite assert_true by lia. ob.
  destruct (step_ok l (IClear req he) W (proj2 LT)) as (l3 & E3 & W3 & M3). cbn [op_range op_value fst snd im_step] in *. rewrite E3. ob.
  unfold shm_dealloc. rewrite assert_true by lia. ob.
  assert (MS : forall p, In p l3 <-> exists q', In q' l /\ In (fst p) (rem req he q') /\ snd p = shift q' (st p)).
  { intros p. rewrite (M3 p). split.
    - intros [(v & X & _)|(q' & I & A & B)]; [discriminate|]. exists q'. split; [exact I|]. split; [exact A|]. rewrite B.
      change (In (fst p) (rem req he q')) in A. assert (E : st p = st q'); [|rewrite E; symmetry; apply shift_same].
      destruct (OTH q' I) as [-> | O].
      + destruct p as [[b0 e0] v0]. apply (rem_in req he) in A; [|lia|unfold st, en; cbn; lia]. unfold st, en in *. cbn in *. lia.
      + rewrite rem_out in A; [|lia|exact (wf_pos _ _ W I)|lia]. destruct A as [A|[]]. unfold st. now rewrite A.
    - intros (q' & I & A & B). right. exists q'. split; [exact I|]. split; [exact A|]. rewrite B.
      assert (E : st p = st q'); [|rewrite E; apply shift_same].
      destruct (OTH q' I) as [-> | O].
      + destruct p as [[b0 e0] v0]. apply (rem_in req he) in A; [|lia|unfold st, en; cbn; lia]. unfold st, en in *. cbn in *. lia.
      + rewrite rem_out in A; [|lia|exact (wf_pos _ _ W I)|lia]. destruct A as [A|[]]. unfold st. now rewrite A. }
  assert (RQ : rem req he q = [(hs, req)]).
  { pose proof (touches_ok req he ltac:(lia) q) as T. unfold st, en in T. cbn [fst snd] in T. specialize (T ltac:(lia)).
    inversion T; unfold st, en in *; cbn [fst snd] in *; try lia; assumption. }
  assert (MP : forall p, In p l3 <-> p = ((hs, req), r) \/ (In p l /\ fst p <> (hs, he))).
  { intros p. rewrite (MS p). split.
    - intros (q' & I & A & B). destruct (OTH q' I) as [-> | O].
      + left. rewrite RQ in A. destruct A as [A|[]]. destruct p as [i v]. cbn [fst] in A. subst i. f_equal. cbn [snd] in B. rewrite B. exact (shift_same q).
      + right. rewrite rem_out in A; [|lia|exact (wf_pos _ _ W I)|lia]. destruct A as [A|[]].
        assert (p = q'). { destruct p as [i v], q' as [i' v']. cbn [fst snd] in *. subst i'. f_equal. rewrite B. exact (shift_same (i, v')). }
        subst p. split; [exact I|]. intros E. unfold st, en in O. rewrite E in O. cbn in O. lia.
    - intros [->|[I N]].
      + exists q. split; [exact IQ|]. split; [rewrite RQ; cbn; auto|]. symmetry. exact (shift_same q).
      + exists p. split; [exact I|]. destruct (OTH p I) as [-> | O]; [now destruct N|]. rewrite rem_out; [|lia|exact (wf_pos _ _ W I)|lia]. split; [cbn; auto|]. symmetry. apply shift_same. }
  eexists _, l3. split; [reflexivity|].
  set (kb := k_mremap hs (he - hs) (req - hs) hs k).
  assert (KB : k_shad kb = k_shad k /\ k_file kb = k_file k /\ k_flen kb = k_flen k /\ k_obj kb = k_obj k /\
     k_plug kb = over hs req (fun x => if x - hs <? he - hs then k_plug k (x - hs + hs) else Some (r_prot r, CShm (hs + (x - hs)))) (over hs he (fun _ => None) (k_plug k))).
  { unfold kb, k_mremap. rewrite (PS hs) by lia. cbn. rewrite (rup_whole (req - hs) AL), (rup_whole (he - hs) AL2).
    replace (hs + (req - hs)) with req by lia. replace (hs + (he - hs)) with he by lia. auto. }
  destruct KB as (KB1 & KB2 & KB3 & KB4 & KB5).
  unfold s_mremap. rewrite KB1, (SH (r_base r)) by lia. rewrite (rup_whole (req - hs) AL), (rup_whole (he - hs) AL2).
  assert (P3 : forall x, hs <= x < req -> k_plug kb x = Some (r_prot r, CShm x)).
  { intros x X. rewrite KB5, over_in by exact X. destruct (Z.ltb_spec (x - hs) (he - hs)); [|lia]. replace (x - hs + hs) with x by lia. apply PS. lia. }
  assert (P5 : forall x, req <= x < he -> k_plug kb x = None).
  { intros x X. rewrite KB5, over_out by lia. rewrite over_in by lia. reflexivity. }
  assert (P4 : forall x, ~ (hs <= x < he) -> k_plug kb x = k_plug k x).
  { intros x X. rewrite KB5, over_out by lia. apply over_out. lia. }
  assert (GB : forall y p x, k_shad k y = Some (p, x) -> (hs <= x < he <-> r_base r <= y < r_base r + (he - hs))).
  { intros y p x E. split; intros X; [rewrite (REV y p x E X); lia|]. rewrite (SH y X) in E. injection E as _ <-. lia. }
  destruct (la_al _ _ _ R2 q IQ) as (_ & _ & Q1 & Q2). unfold st, en in Q1, Q2. cbn in Q1, Q2.
  split; cbn [s_m s_k mm_regs mm_heap n_heap n_k n_areas fst snd].
  - reflexivity.
  - destruct (take_out l q W IQ) as (l0 & _ & W0 & M0).
    apply (lay_put (inr hs he) k _ l0 l3 hs req r (r_base r)); auto; cbn; try lia.
    + exact (lay_drop k l l0 q R2 IQ W0 M0).
    + intros p. rewrite (MP p), (M0 p). reflexivity.
    + rewrite PH. exact Logic.I.
    + intros y Y. rewrite over_in by lia. destruct (Z.ltb_spec (y - r_base r) (he - hs)); [|lia].
      replace (y - r_base r + r_base r) with y by lia. rewrite ?KB1. apply SH. lia.
    + intros y Y p x. rewrite over_out by lia. rewrite ?KB1. destruct (inr_dec (r_base r) (r_base r + (he - hs)) y) as [H|H].
      * rewrite over_in by exact H. split; [discriminate|]. intros [E NG]. apply (GB _ _ _ E) in H. apply inr_iff in H. congruence.
      * rewrite over_out by exact H. split; [|tauto]. intros E. split; [exact E|]. apply inr_no. intros X. apply (GB _ _ _ E) in X. contradiction.
    + intros y Y p x E. apply inr_iff. apply (GB _ _ _ E). lia.
    + intros x X. destruct (inr_dec req he x) as [H|H]; [rewrite over_in in X by exact H; congruence|]. rewrite over_out, KB2 in X by exact H.
      destruct (inr_dec hs req x) as [H2|H2]; [auto|]. left. split; [exact X|]. apply inr_no. lia.
  - apply (pl_step k _ l l3 (fun x => ~ (hs <= x < he)) (fun p => p = ((hs, req), r))); auto; cbn.
    + intros p I. apply MP in I as [->|[I N]]; [auto|]. right. exists p. split; [exact I|]. split; [reflexivity|]. split; [tauto|]. intros x X. split; [exact X|].
      destruct (OTH p I) as [-> | O]; [now destruct N|]. lia.
    + intros p x _ -> X. cbn. destruct (Z.eqb_spec (r_base r) 0); [contradiction|]. apply P3. exact X.
    + intros x X. destruct (inr_dec hs he x) as [H|H].
      * left. exists ((hs, req), r). split; [apply MP; auto|]. destruct (Z_lt_le_dec x req); [unfold st, en; cbn; lia|]. rewrite P5 in X by lia. congruence.
      * right. split; [exact H|]. intros q' I XQ. exists q'. split; [|exact XQ]. apply MP. right. split; [exact I|]. intros E. unfold st, en in XQ. rewrite E in XQ. cbn in XQ. contradiction.
  - reflexivity.
  - split; [exact A1|]. split; [exact WR|lia].
  - cbn. lia.
  - intros x. cbn. rewrite (rup_whole he A2), (rup_whole req WR). destruct (inr_dec req he x) as [H|H].
    + rewrite over_in by exact H. symmetry. apply view_at. cbn. auto.
    + rewrite over_out by exact H. rewrite R7. symmetry. apply view_same; cbn; [|rewrite over_out by exact H; now rewrite KB2|eapply shm_at; exact R3].
      destruct (inr_dec hs he x) as [H2|H2]; [|auto]. rewrite P3 by lia. rewrite PS by lia. reflexivity.
  - cbn. now rewrite KB4.
  - destruct (Z.ltb_spec he req); [lia|]. apply (areas_cut _ l l3 req he R9 MS).
Qed.
End Has.
End Brk.

Lemma brk_ok top s n l req ok b : rel top s n l -> kernel_allows (n_k n) (n_heap n) (OBrk req ok b) ->
  shadow_allows (s_k s) (n_heap n) (OBrk req ok b) ->
  supported top n (OBrk req ok b) -> follows top s n (OBrk req ok b).
Proof.
  intros R KA SA SU. cbn in SU, SA. destruct (n_heap n) as [hs he] eqn:EH. cbn [fst snd] in SA. destruct SU as [LT|(WR & -> & TP & SU)].
  { unfold follows. cbn [step native_step]. unfold handle_brk, n_brk. rewrite (re_heap _ _ _ _ R), EH. rewrite (proj2 (Z.ltb_lt req hs)) by exact LT. ob. cbn. eauto. }
  cbn in KA. destruct KA as [UM TS]. apply whole_al in WR. pose proof (heap_al top s n l hs he R EH) as (A1 & A2 & A3).
  destruct SU as [EQ|[[LT EQ]|[(LT & IA & PRW)|[LT IA]]]].
  - subst req. unfold follows. cbn [step native_step]. unfold handle_brk, n_brk. pose proof R as [R1 R2 R3 R4 R5 R6 R7 R8 R9]. rewrite R4, EH.
    rewrite (proj2 (Z.ltb_ge he hs)) by lia. cbn [orb negb]. rewrite assert_true by (apply Z.eqb_eq; exact A2). rewrite Z.eqb_refl. ob. cbn [fst snd].
    rewrite (proj2 (Z.leb_le he he)) by lia. exists s, l. split; [reflexivity|]. split; cbn [n_heap n_k n_areas]; auto.
    + now rewrite R4.
    + intros x. cbn. rewrite over_out by lia. apply R7.
  - apply (brk_first top s n l req b hs he); auto. apply SA. lia.
  - apply (re_areas _ _ _ _ R) in IA as (r & I & K). apply (brk_grow top s n l req b hs he R EH WR r I K); auto. apply SA. lia.
  - apply (re_areas _ _ _ _ R) in IA as (r & I & K). apply (brk_shrink top s n l req b hs he R EH WR r I K). exact LT.
Qed.
