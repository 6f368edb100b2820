(** mremap keeps the relation. *)
From Verif Require Import Base IntervalModel IntervalSpec IntervalProofs MemKernel MemModel MemSpec MemLayout MemUnmap MemProtect MemRel MemSteps MemGrow.

Lemma drop_shift l l0 (q : ent) : WF l -> In q l -> (forall p, In p l0 <-> In p l /\ fst p <> fst q) ->
  forall p, In p l0 <-> exists q', In q' l /\ In (fst p) (rem (st q) (en q) q') /\ snd p = shift q' (st p).
Proof.
  intros W I M p. rewrite (M p). pose proof (wf_pos _ _ W I) as P. split.
  - intros [J N]. exists p. split; [exact J|]. rewrite rem_out; [|lia|exact (wf_pos _ _ W J)|].
    + split; [cbn; auto|]. now rewrite shift_same.
    + apply (others_out l q p W I J). congruence.
  - intros (q' & J & A & B). destruct (Z.eq_dec (st q') (st q)) as [E1|E1].
    + assert (q' = q) by (pose proof (wf_pos _ _ W J); apply (wf_unique l q' q (st q) W J I); lia). subst q'. rewrite rem_all in A by lia. destruct A.
    + rewrite rem_out in A; [|lia|exact (wf_pos _ _ W J)|apply (others_out l q q' W I J); congruence]. destruct A as [A|[]].
      assert (p = q'). { destruct p as [i r]. destruct q' as [i' r']. cbn [fst snd] in *. subst i'. f_equal. rewrite B. exact (shift_same (i, r')). }
      subst p. split; [exact J|]. intros C. apply E1. unfold st. now rewrite C.
Qed.

Lemma mremap_ok top s n l old osz nsz mv ans b : rel top s n l -> kernel_allows (n_k n) (n_heap n) (OMremap old osz nsz mv ans b) ->
  shadow_allows (s_k s) (n_heap n) (OMremap old osz nsz mv ans b) ->
  supported top n (OMremap old osz nsz mv ans b) -> follows top s n (OMremap old osz nsz mv ans b).
Proof.
  intros R KA SA SU. unfold follows. cbn [step native_step fst snd]. unfold handle_mremap. destruct ans as [new|].
  2:{ ob. exists s, l. split; [reflexivity|exact R]. }
  cbn in KA, SA, SU. destruct SU as (WO & WN & O0 & IA & RWP). apply whole_al in WO, WN.
  destruct KA as (AO & AN & OP & NP & _ & N0 & TS & _ & UM & DJ). destruct SA as (AB & B0 & PL).
  rewrite (rup_whole nsz WN), (rup_whole osz WO) in *. pose proof task_max as TM.
  replace (mv && (osz =? 0)) with false by (destruct (Z.eqb_spec osz 0); [lia|now rewrite andb_false_r]).
  pose proof R as [R1 R2 R3 R4 R5 R6 R7 R8 R9]. rewrite R1.
  apply R9 in IA as (r & IQ & KR). set (q := ((old, old + osz), r)) in *. pose proof (la_wf _ _ _ R2) as W.
  change (im_clear (of_list l) old (old + osz)) with (im_clear (of_list l) (st q) (en q)).
  destruct (take_out l q W IQ) as (l0 & E0 & W0 & M0). rewrite E0. ob. cbn [q st en fst snd]. rewrite !Z.eqb_refl. cbn [andb]. rewrite assert_true by reflexivity. ob.
  set (k := s_k s) in *. set (k1 := k_mremap old osz nsz new k) in *. set (G := inr old (old + osz)).
  assert (DJ' : new <> old -> new + nsz <= old \/ old + osz <= new) by (intros H; apply DJ in H; lia).
  assert (K1F : k_shad k1 = k_shad k /\ k_file k1 = k_file k /\ k_flen k1 = k_flen k /\ k_obj k1 = k_obj k).
  { unfold k1, k_mremap. destruct (k_plug k old) as [[p c]|]; cbn; auto. }
  destruct K1F as (KS & KF & KL & KO).
  assert (OLD : exists p c, k_plug k old = Some (p, c) /\ if r_base r =? 0 then not_shm c else p = r_prot r /\ c = CShm old).
  { destruct (Z.eqb_spec (r_base r) 0) as [Z0|Z0].
    - destruct (pl_oth _ _ R3 q old IQ Z0) as (p & c & E & N); [unfold st, en; cbn; lia|]. eauto.
    - pose proof (pl_shm _ _ R3 q old IQ Z0) as E. exists (r_prot r), (CShm old). split; [apply E; unfold st, en; cbn; lia|auto]. }
  destruct OLD as (p0 & c0 & EOLD & COLD).
  assert (K1P : k_plug k1 = over new (new + nsz) (fun x => if x - new <? osz then k_plug k (x - new + old) else Some (p0, grown c0 (x - new))) (over old (old + osz) (fun _ => None) (k_plug k))).
  { unfold k1, k_mremap. rewrite EOLD. cbn. rewrite (rup_whole nsz WN), (rup_whole osz WO). reflexivity. }
  assert (NK : k_plug (k_mremap old osz nsz new (n_k n)) = over new (new + nsz) (fun x => if x - new <? osz then k_plug (n_k n) (x - new + old) else Some (p0, grown (solo k c0) (x - new))) (over old (old + osz) (fun _ => None) (k_plug (n_k n)))).
  { unfold k_mremap. rewrite R7. unfold view. rewrite EOLD. cbn. rewrite (rup_whole nsz WN), (rup_whole osz WO). reflexivity. }
  assert (NO : k_obj (k_mremap old osz nsz new (n_k n)) = k_obj (n_k n)).
  { unfold k_mremap. destruct (k_plug (n_k n) old) as [[p c]|]; reflexivity. }
  assert (A0 : areas_ok (cut old (old + osz) (n_areas n)) l0).
  { apply (areas_cut (n_areas n) l l0 old (old + osz) R9). exact (drop_shift l l0 q W IQ M0). }
  (* the new region is inserted into a hole *)
  assert (FIN : forall H k2 l2 r3 k3 l3, lay H k1 l0 ->
      (forall p, In p l2 <-> exists q', In q' l0 /\ In (fst p) (rem new (new + nsz) q') /\ snd p = shift q' (st p)) ->
      k_flen k2 = k_flen k -> (forall p, In p l3 <-> p = ((new, new + nsz), r3) \/ In p l2) -> lay none k3 l3 -> kind r3 = KMap ->
      k_flen k2 <= k_flen k3 -> k_obj k3 = k_obj k ->
      (forall x, new <= x < new + nsz -> if r_base r3 =? 0 then exists pr c, k_plug k3 x = Some (pr, c) /\ not_shm c else k_plug k3 x = Some (r_prot r3, CShm x)) ->
      (forall x, ~ (new <= x < new + nsz) -> k_plug k3 x = k_plug k1 x) ->
      (forall x, ~ (new <= x < new + nsz) -> ~ (old <= x < old + osz) -> k_file k3 x = k_file k x) ->
      (forall x, new <= x < new + nsz -> view k3 x = if x - new <? osz then view k (x - new + old) else Some (p0, grown (solo k c0) (x - new))) ->
      rel top (mkSt k3 (mkMap (of_list l3) (mm_heap (s_m s)))) (mkNat (k_mremap old osz nsz new (n_k n)) (n_heap n) (((new, new + nsz), KMap) :: cut new (new + nsz) (cut old (old + osz) (n_areas n)))) l3).
  { intros H k2 l2 r3 k3 l3 L0 M2 F2 M3 L3 K3 C1 C2 C3 C4 C5 C6.
    assert (OUT : forall p, In p l2 -> exists q', In q' l /\ r_prot (snd p) = r_prot (snd q') /\ (base p = 0 <-> base q' = 0) /\
       forall x, st p <= x < en p -> st q' <= x < en q' /\ ~ (new <= x < new + nsz) /\ ~ (old <= x < old + osz)).
    { intros p I. destruct (piece new (new + nsz) H k1 l0 l2 ltac:(lia) L0 M2 p I) as (q' & I' & H1 & H2 & H3 & _). apply M0 in I' as [I' N'].
      exists q'. split; [exact I'|]. split; [exact H1|]. split; [exact H2|]. intros x X. destruct (H3 x X) as [X1 X2]. split; [exact X1|]. split; [exact X2|].
      destruct (others_out l q q' W IQ I') as [O|O]; [congruence|..]; unfold st at 2, en at 2 in O || unfold st, en in *; unfold q, st, en in *; cbn [fst snd] in *; lia. }
    assert (P1 : forall x, ~ (new <= x < new + nsz) -> old <= x < old + osz -> k_plug k1 x = None).
    { intros x X Y. rewrite K1P, over_out by exact X. now rewrite over_in by exact Y. }
    assert (P2 : forall x, ~ (new <= x < new + nsz) -> ~ (old <= x < old + osz) -> k_plug k1 x = k_plug k x).
    { intros x X Y. rewrite K1P, over_out by exact X. now apply over_out. }
    split; cbn [s_m s_k mm_regs mm_heap n_heap n_k n_areas]; auto.
    - apply (pl_step k k3 l l3 (fun x => ~ (new <= x < new + nsz) /\ ~ (old <= x < old + osz)) (fun p => p = ((new, new + nsz), r3))); auto.
      + intros x [X Y]. rewrite C4 by exact X. auto.
      + intros p I. apply M3 in I as [->|I]; [auto|]. right. apply OUT. exact I.
      + intros p x I -> X. exact (C3 x X).
      + intros x X. destruct (inr_dec new (new + nsz) x) as [Y|Y].
        * left. exists ((new, new + nsz), r3). split; [apply M3; auto|exact Y].
        * right. rewrite C4 in X by exact Y. destruct (inr_dec old (old + osz) x) as [Y2|Y2]; [rewrite P1 in X by assumption; congruence|].
          split; [auto|]. intros q' I' X'. assert (I0 : In q' l0).
          { apply M0. split; [exact I'|]. intros E. apply Y2. unfold st, en in X'. rewrite E in X'. exact X'. }
          destruct (cover new (new + nsz) l0 l2 ltac:(lia) M2 q' x I0 X' Y) as (q2 & I2 & X2). exists q2. split; [apply M3; auto|exact X2].
    - fold k in R6. lia.
    - intros x. rewrite NK. destruct (inr_dec new (new + nsz) x) as [Y|Y].
      + rewrite over_in by exact Y. rewrite C6 by exact Y. rewrite R7. reflexivity.
      + rewrite over_out by exact Y. destruct (inr_dec old (old + osz) x) as [Y2|Y2].
        * rewrite over_in by exact Y2. symmetry. apply view_at. rewrite C4 by exact Y. auto.
        * rewrite over_out by exact Y2. rewrite R7. symmetry. apply view_same; auto; [rewrite C4 by exact Y; auto|eapply shm_at; exact R3].
    - rewrite NO, C2. exact R8.
    - rewrite <- K3. apply (areas_cons _ l2); [|exact M3]. apply (areas_cut _ l0 l2); assumption. }
  unfold clear_unmap. destruct (Z.eqb_spec (r_base r) 0) as [Z0|Z0].
  - (* not shared with Shadow *)
    assert (L0 : lay none k1 l0).
    { apply (lay_ext none k k1); [assumption..|]. apply (lay_drop0 k l l0 q); auto. }
    destruct (clear_ok new (new + nsz) none k1 l0 ltac:(lia) AN (al_add _ _ AN WN) L0) as (k2 & l2 & E2 & L2 & M2 & K1 & K2 & K3 & K4 & K5).
    fold (clear_unmap new (new + nsz) k1 (of_list l0)). rewrite E2. ob. unfold move_region. rewrite (proj2 (Z.eqb_eq (r_base r) 0) Z0). ob.
    destruct (insert_ok new (new + nsz) r l2 ltac:(lia) (la_wf _ _ _ L2)) as (l3 & E3 & W3 & M3).
    { intros p I. destruct (piece new (new + nsz) none k1 l0 l2 ltac:(lia) L0 M2 p I) as (_ & _ & _ & _ & _ & X). exact X. }
    rewrite E3. ob. cbn [no_muts]. rewrite assert_true by reflexivity. eexists _, l3. split; [reflexivity|].
    assert (IN1 : forall x, new <= x < new + nsz -> exists pr c, k_plug k1 x = Some (pr, c) /\ not_shm c).
    { intros x X. rewrite K1P, over_in by exact X. destruct (Z.ltb_spec (x - new) osz).
      - apply (pl_oth _ _ R3 q _ IQ Z0). unfold q, st, en. cbn. lia.
      - exists p0, (grown c0 (x - new)). split; [reflexivity|]. destruct c0; [destruct COLD|exact Logic.I..]. }
    apply (FIN none k2 l2 r k2 l3); auto; try lia.
    + apply (lay_put0 k2 l2 l3 new (new + nsz) r); auto; [now apply al_add|lia|lia|]. intros C. unfold kind in KR. rewrite C in KR. discriminate.
    + congruence.
    + rewrite Z0. cbn. intros x X. rewrite K1. apply IN1. exact X.
    + intros x X. now rewrite K1.
    + intros x X Y. rewrite K4, KF. apply inr_no in X. rewrite X. reflexivity.
    + intros x X. unfold view. rewrite K1, K1P, over_in by exact X. destruct (Z.ltb_spec (x - new) osz).
      * destruct (pl_oth _ _ R3 q (x - new + old) IQ Z0) as (pr & c & E & N); [unfold q, st, en; cbn; lia|]. rewrite E. cbn. destruct c; [destruct N|reflexivity..].
      * cbn. destruct c0; [destruct COLD|reflexivity..].
  - (* shared with Shadow *)
    destruct COLD as [-> ->]. destruct (la_shm _ _ _ R2 q IQ Z0) as (RA & RP & RL & RN). unfold q, en in RA, RP, RL, RN. cbn [fst snd] in RA, RP, RL, RN.
    assert (RPA : r_path r = None) by (unfold kind, not_file in *; destruct (r_path r) as [[| |]|]; try discriminate; [destruct RN|reflexivity]).
    assert (L0 : lay G k1 l0).
    { apply (lay_ext G k k1); [assumption..|]. apply (lay_drop k l l0 q); auto. }
    destruct (clear_ok new (new + nsz) G k1 l0 ltac:(lia) AN (al_add _ _ AN WN) L0) as (k2 & l2 & E2 & L2 & M2 & K1 & K2 & K3 & K4 & K5).
    fold (clear_unmap new (new + nsz) k1 (of_list l0)). rewrite E2. ob. rewrite KS in K5. rewrite KF in K4.
    assert (SHQ : forall x, old <= x < old + osz -> k_plug k x = Some (r_prot r, CShm x)).
    { intros x X. apply (pl_shm _ _ R3 q x IQ Z0). exact X. }
    destruct (move_ok old osz nsz new b WO WN O0 N0 AB B0 DJ' k2 r RA RP RPA) as (k3 & r3 & E3 & Y1 & Y2 & Y3 & Y4 & Y5 & Y6 & Y7 & Y8 & Y9 & Y10 & Y11 & Y12).
    { intros x X. apply K5. split; [exact (la_map _ _ _ R2 q x IQ Z0 X)|]. unfold G. rewrite (proj2 (inr_iff _ _ _) X). now rewrite andb_false_r. }
    { intros y p x E X. apply K5 in E as [E _]. destruct (la_rev _ _ _ R2 _ _ _ E eq_refl) as (q' & I' & _ & X' & ->).
      assert (q' = q) by (apply (wf_unique l q' q x W I' IQ); [exact X'|exact X]). subst q'. reflexivity. }
    { intros y Y p x E. apply K5 in E as [E GN]. destruct (PL y Y) as [H|[(p2 & H)|(p2 & x2 & H & HX & HN)]]; fold k in H; rewrite E in H; [discriminate|..].
      - injection H as <- ->. rewrite (proj2 (inr_iff new (new + nsz) (new + (y - b)))) in GN by lia. cbn in GN. apply negb_false_iff in GN. split; [exact GN|].
        intros N. apply DJ' in N. unfold G in GN. apply inr_iff in GN. lia.
      - injection H as <- <-. rewrite (proj2 (inr_iff new (new + nsz) x)) in GN by lia. cbn in GN. apply negb_false_iff in GN. apply inr_iff in GN. contradiction. }
    { intros N. apply (RWP N (r_prot r) (k_file k old)). rewrite R7. unfold view. fold k. rewrite EOLD. reflexivity. }
    { rewrite K3, KL. exact RL. }
    { intros x X Y. rewrite K4. unfold G. rewrite (proj2 (inr_iff _ _ _) X), (proj2 (inr_no _ _ _) Y). reflexivity. }
    { intros -> x X. rewrite K1, K1P, over_in by exact X. destruct (Z.ltb_spec (x - old) osz).
      - replace (x - old + old) with x by lia. apply SHQ. lia.
      - cbn. do 3 f_equal. lia. }
    rewrite E3. ob.
    destruct (insert_ok new (new + nsz) r3 l2 ltac:(lia) (la_wf _ _ _ L2)) as (l3 & E4 & W3 & M3).
    { intros p I. destruct (piece new (new + nsz) G k1 l0 l2 ltac:(lia) L0 M2 p I) as (_ & _ & _ & _ & _ & X). exact X. }
    rewrite E4. ob. cbn [no_muts]. rewrite assert_true by reflexivity. eexists _, l3. split; [reflexivity|].
    apply (FIN G k2 l2 r3 k3 l3); auto; try lia.
    + apply (lay_put G k2 k3 l2 l3 new (new + nsz) r3 (r_base r3)); auto; try lia; try (now apply al_add).
      * rewrite Y4. exact Logic.I.
      * intros y Y. apply Y8. lia.
      * intros y Y. apply Y9. lia.
      * intros y Y. apply Y10. lia.
      * intros x NZ. rewrite Y11 in NZ. destruct (inr new (new + nsz) x) eqn:H; [right; now apply inr_iff|]. left. fold G in NZ. destruct (G x) eqn:HG; [congruence|]. auto.
    + unfold kind. rewrite Y4. reflexivity.
    + congruence.
    + intros x X. destruct (Z.eqb_spec (r_base r3) 0); [lia|]. rewrite Y12, (proj2 (inr_iff _ _ _) X). reflexivity.
    + intros x X. rewrite Y12, (proj2 (inr_no _ _ _) X). now rewrite K1.
    + intros x X Y. rewrite Y11, (proj2 (inr_no _ _ _) X), (proj2 (inr_no _ _ _) Y), K4, (proj2 (inr_no _ _ _) X). reflexivity.
    + intros x X. unfold view. rewrite Y12, (proj2 (inr_iff _ _ _) X). cbn. rewrite Y3, Y11, (proj2 (inr_iff _ _ _) X). destruct (Z.ltb_spec (x - new) osz) as [H|H].
      * rewrite SHQ by lia. cbn. do 3 f_equal. rewrite K4. unfold G. rewrite (proj2 (inr_iff old (old + osz) (old + (x - new)))) by lia. rewrite andb_false_r. f_equal. lia.
      * reflexivity.
Qed.
