(** Each call keeps the relation: mmap, munmap, mprotect. *)
From Verif Require Import Base IntervalModel IntervalSpec IntervalProofs MemKernel MemModel MemSpec MemLayout MemUnmap MemProtect MemRel.

Definition follows (top : Z) (s : state) (n : native) (o : op) : Prop :=
  exists s' l', step s o = Some (s', snd (native_step n o)) /\ rel top s' (fst (native_step n o)) l'.

Lemma task_max : TASK_SIZE <= U64_MAX.
Proof. unfold TASK_SIZE, U64_MAX. lia. Qed.

(** pieces left by a cut *)
Lemma piece s t G k l l' : s < t -> lay G k l ->
  (forall p, In p l' <-> exists q, In q l /\ In (fst p) (rem s t q) /\ snd p = shift q (st p)) ->
  forall p, In p l' -> exists q, In q l /\ r_prot (snd p) = r_prot (snd q) /\ (base p = 0 <-> base q = 0) /\
     (forall x, st p <= x < en p -> st q <= x < en q /\ ~ (s <= x < t)) /\ (en p <= s \/ t <= st p).
Proof.
  intros ST L M p I. apply M in I as (q & I & A & B). exists q. split; [exact I|]. rewrite B, shift_prot. split; [reflexivity|].
  destruct p as [[b e] v]. change (st (b, e, v)) with b in *. change (en (b, e, v)) with e in *. cbn [fst snd] in *.
  destruct (rem_in s t ST q b e (wf_pos _ _ (la_wf _ _ _ L) I) A) as (C1 & C2 & C3 & C4 & C5).
  split; [apply (shift_base G k l); auto|]. split; [intros x X; lia|exact C4].
Qed.
Lemma cover s t (l l' : list ent) : s < t ->
  (forall p, In p l' <-> exists q, In q l /\ In (fst p) (rem s t q) /\ snd p = shift q (st p)) ->
  forall q x, In q l -> st q <= x < en q -> ~ (s <= x < t) -> exists p, In p l' /\ st p <= x < en p.
Proof.
  intros ST M q x I X N. destruct (rem_cover s t ST q x X N) as (b & e & J & LX). exists ((b, e), shift q b).
  split; [|exact LX]. apply M. exists q. auto.
Qed.

Lemma munmap_ok top s n l a len ok : rel top s n l -> kernel_allows (n_k n) (n_heap n) (OMunmap a len ok) ->
  supported top n (OMunmap a len ok) -> follows top s n (OMunmap a len ok).
Proof.
  intros R KA SU. unfold follows. cbn [step native_step fst snd]. unfold do_munmap. destruct ok.
  2:{ ob. exists s, l. split; [reflexivity|exact R]. }
  cbn in KA, SU. destruct KA as (AA & A0 & L0 & TS). apply whole_al in SU. rewrite (rup_whole len SU) in TS.
  destruct R as [R1 R2 R3 R4 R5 R6 R7 R8 R9]. unfold handle_munmap_result. destruct (Z.eqb_spec len 0); [lia|]. cbn [s_k s_m]. rewrite R1.
  set (k1 := k_munmap a len (s_k s)).
  destruct (clear_ok a (a + len) none k1 l ltac:(lia) AA (al_add _ _ AA SU)) as (k2 & l2 & E & L2 & M2 & K1 & K2 & K3 & K4 & K5).
  { eapply lay_ext; [..|exact R2]; reflexivity. }
  rewrite E. ob. eexists _, l2. split; [reflexivity|].
  assert (PK : k_plug k2 = over a (a + len) (fun _ => None) (k_plug (s_k s))).
  { rewrite K1. unfold k1, k_munmap. rewrite (rup_whole len SU). reflexivity. }
  split; cbn [s_m s_k mm_regs mm_heap n_heap n_k n_areas]; auto.
  - apply (pl_step (s_k s) k2 l l2 (fun x => ~ (a <= x < a + len)) (fun _ => False)); auto.
    + intros x X. rewrite PK. now apply over_out.
    + intros p I. right. destruct (piece a (a + len) none (s_k s) l l2 ltac:(lia) R2 M2 p I) as (q & H1 & H2 & H3 & H4 & _). exists q. auto.
    + tauto.
    + intros x X. right. assert (NX : ~ (a <= x < a + len)) by (intros H; apply X; rewrite PK; now rewrite over_in). split; [exact NX|].
      intros q I XQ. apply (cover a (a + len) l l2 ltac:(lia) M2 q x I XQ NX).
  - rewrite K3. exact R6.
  - intros x. unfold k_munmap. cbn [set_plug k_plug]. rewrite (rup_whole len SU). destruct (inr_dec a (a + len) x) as [H|H].
    + rewrite over_in by exact H. symmetry. apply view_at. rewrite PK. now rewrite over_in.
    + rewrite over_out by exact H. rewrite R7. symmetry. apply view_same.
      * rewrite PK. now apply over_out.
      * rewrite K4. apply inr_no in H. rewrite H. reflexivity.
      * eapply shm_at. exact R3.
  - unfold k_munmap. cbn. rewrite K2, R8. reflexivity.
  - apply (areas_cut _ _ _ _ _ R9 M2).
Qed.

Lemma mmap_ok top s n l ans len p src ty fx b : rel top s n l -> kernel_allows (n_k n) (n_heap n) (OMmap ans len p src ty fx b) ->
  shadow_allows (s_k s) (n_heap n) (OMmap ans len p src ty fx b) ->
  supported top n (OMmap ans len p src ty fx b) -> follows top s n (OMmap ans len p src ty fx b).
Proof.
  intros R KA SA SU. unfold follows. cbn [step native_step fst snd]. unfold do_mmap. destruct ans as [a|].
  2:{ ob. exists s, l. split; [reflexivity|exact R]. }
  cbn in KA, SA, SU. destruct KA as (AA & A0 & L0 & TS & VA & FX). apply whole_al in SU. rewrite (rup_whole len SU) in TS.
  destruct SA as (AB & B0 & PL). rewrite (rup_whole len SU) in PL. pose proof task_max as TM.
  destruct R as [R1 R2 R3 R4 R5 R6 R7 R8 R9]. unfold handle_mmap_result. destruct (Z.eqb_spec len 0); [lia|]. cbn [s_k s_m]. rewrite R1.
  set (k1 := k_mmap a len p src ty (s_k s)).
  destruct (clear_ok a (a + len) none k1 l ltac:(lia) AA (al_add _ _ AA SU)) as (k2 & l2 & E & L2 & M2 & K1 & K2 & K3 & K4 & K5).
  { eapply lay_ext; [..|exact R2]; reflexivity. }
  rewrite E. ob.
  assert (PC : forall q, In q l2 -> _) by exact (piece a (a + len) none (s_k s) l l2 ltac:(lia) R2 M2).
  assert (PK : k_plug k2 = over a (a + len) (fun x => Some (p, mapped_cell (s_k s) src ty (x - a))) (k_plug (s_k s))).
  { rewrite K1. unfold k1, k_mmap. rewrite (rup_whole len SU). reflexivity. }
  assert (MC : forall i, mapped_cell (n_k n) src ty i = mapped_cell (s_k s) src ty i).
  { intros i. destruct src, ty; cbn; auto. now rewrite R8. }
  set (sh := match ty with TShared => true | _ => false end).
  set (pa := match src with Anon _ => None | FileAt o _ => Some (PFile o) end).
  assert (KR : forall base, kind (mkReg base p sh pa) = KMap) by (intros; unfold kind, pa; destruct src; reflexivity).
  assert (INS : forall base, exists l3, im_insert (of_list l2) a (a + len) (mkReg base p sh pa) = Some (of_list l3, []) /\ WF l3 /\
     (forall q, In q l3 <-> q = ((a, a + len), mkReg base p sh pa) \/ In q l2)).
  { intros base. apply insert_ok; [lia|exact (la_wf _ _ _ L2)|]. intros q I. destruct (PC q I) as (_ & _ & _ & _ & _ & H). exact H. }
  (* what is common to both kinds of region *)
  assert (FIN : forall k3 base l3, WF l3 -> (forall q, In q l3 <-> q = ((a, a + len), mkReg base p sh pa) \/ In q l2) ->
     lay none k3 l3 ->
     (forall x, a <= x < a + len -> if base =? 0 then exists pr c, k_plug k3 x = Some (pr, c) /\ not_shm c else k_plug k3 x = Some (p, CShm x)) ->
     (forall x, a <= x < a + len -> view k3 x = Some (p, mapped_cell (s_k s) src ty (x - a))) ->
     (forall x, ~ (a <= x < a + len) -> k_plug k3 x = k_plug (s_k s) x) -> k_file k3 = k_file k2 -> k_flen k2 <= k_flen k3 -> k_obj k3 = k_obj k2 ->
     rel top (mkSt k3 (mkMap (of_list l3) (mm_heap (s_m s)))) (mkNat (k_mmap a len p src ty (n_k n)) (n_heap n) (((a, a + len), KMap) :: cut a (a + len) (n_areas n))) l3).
  { intros k3 base l3 W3 M3 L3 C1 C2 C3 C4 C5 C6. split; cbn [s_m s_k mm_regs mm_heap n_heap n_k n_areas]; auto.
    - apply (pl_step (s_k s) k3 l l3 (fun x => ~ (a <= x < a + len)) (fun q => q = ((a, a + len), mkReg base p sh pa))); auto.
      + intros q I. apply M3 in I as [->|I]; [auto|]. right. destruct (PC q I) as (q' & H1 & H2 & H3 & H4 & _). exists q'. auto.
      + intros q x I -> X. exact (C1 x X).
      + intros x X. destruct (inr_dec a (a + len) x) as [H|H].
        * left. exists ((a, a + len), mkReg base p sh pa). split; [apply M3; auto|exact H].
        * right. split; [exact H|]. intros q I XQ. destruct (cover a (a + len) l l2 ltac:(lia) M2 q x I XQ H) as (q' & I' & X'). exists q'. split; [apply M3; auto|exact X'].
    - rewrite K3 in C5. cbn in C5. lia.
    - intros x. unfold k_mmap. cbn [set_plug k_plug]. rewrite (rup_whole len SU). destruct (inr_dec a (a + len) x) as [H|H].
      + rewrite over_in by exact H. rewrite C2 by exact H. now rewrite MC.
      + rewrite over_out by exact H. rewrite R7. symmetry. apply view_same; auto.
        * rewrite C4, K4. apply inr_no in H. rewrite H. reflexivity.
        * eapply shm_at. exact R3.
    - unfold k_mmap. cbn. rewrite C6, K2, R8. reflexivity.
    - rewrite <- (KR base). apply (areas_cons _ l2); [|exact M3]. apply (areas_cut _ _ _ _ _ R9 M2). }
  destruct (match src with Anon _ => true | FileAt _ _ => false end && negb sh) eqn:CASE.
  - (* memory shared with Shadow *)
    assert (EA : exists o, src = Anon o) by (destruct src; [eauto|discriminate]). destruct EA as [o EA].
    assert (ET : ty = TPrivate).
    { unfold sh in CASE. rewrite EA in CASE. destruct ty; [discriminate|reflexivity|]. destruct (VA eq_refl) as (? & ? & ?). congruence. }
    destruct (INS b) as (l3 & EI & W3 & M3). rewrite EI. ob. cbn [no_muts]. rewrite assert_true by reflexivity.
    eexists _, l3. split; [reflexivity|].
    set (ka := shm_alloc (a + len) k2).
    assert (KA1 : k_shad ka = k_shad k2 /\ k_file ka = k_file k2 /\ k_plug ka = k_plug k2 /\ k_obj ka = k_obj k2 /\ k_flen k2 <= k_flen ka /\ a + len <= k_flen ka).
    { unfold ka, shm_alloc. destruct (Z.ltb_spec (k_flen k2) (a + len)); cbn; repeat (split; auto; try lia). }
    destruct KA1 as (KA1 & KA2 & KA3 & KA4 & KA5 & KA6).
    unfold mmap_into_shadow, s_mmap, mmap_into_plugin. replace (a + len - a) with len by lia. rewrite (rup_whole len SU).
    assert (FREE : forall y, b <= y < b + len -> k_shad k2 y = None).
    { intros y Y. destruct (k_shad k2 y) as [[p' x']|] eqn:Q; [|reflexivity]. exfalso. apply K5 in Q as [Q IN]. change (k_shad k1 y) with (k_shad (s_k s) y) in Q.
      rewrite andb_true_r in IN. apply inr_no in IN. destruct (PL y Y) as [H|[(p2 & H)|(p2 & x2 & H & HX & _)]]; rewrite Q in H; [discriminate|injection H as <- ->; lia|injection H as <- ->; lia]. }
    apply (FIN _ b l3); auto; cbn.
    + apply (lay_put none k2 _ l2 l3 a (a + len) (mkReg b p sh pa) b); auto; cbn; try lia; try (apply al_add; auto).
      * unfold pa. rewrite EA. exact I.
      * intros y Y. rewrite over_in by lia. reflexivity.
      * intros y Y p' x'. rewrite over_out by lia. rewrite KA1. tauto.
      * intros y Y p' x' Q. rewrite FREE in Q by lia. discriminate.
      * intros x X. rewrite KA2 in X. auto.
    + intros x X. destruct (Z.eqb_spec b 0); [lia|]. rewrite over_in by exact X. do 3 f_equal. lia.
    + intros x X. unfold view. cbn. rewrite over_in by exact X. cbn. replace (a + (x - a)) with x by lia. rewrite KA2, K4.
      apply inr_iff in X. rewrite X. subst src ty. reflexivity.
    + intros x X. rewrite over_out by exact X. rewrite KA3, PK. now apply over_out.
  - (* other memory *)
    destruct (INS 0) as (l3 & EI & W3 & M3). rewrite EI. ob. cbn [no_muts]. rewrite assert_true by reflexivity.
    eexists _, l3. split; [reflexivity|].
    assert (NS : forall i, not_shm (mapped_cell (s_k s) src ty i)) by (intros; destruct src, ty; exact I).
    apply (FIN k2 0 l3); auto; try lia.
    + apply (lay_put0 k2 l2 l3 a (a + len) (mkReg 0 p sh pa)); auto; [apply al_add; auto|lia|lia|]. cbn. unfold pa. destruct src; congruence.
    + intros x X. rewrite PK, over_in by exact X. rewrite Z.eqb_refl. eauto.
    + intros x X. unfold view. rewrite PK, over_in by exact X. cbn. f_equal. f_equal. specialize (NS (x - a)). destruct (mapped_cell _ _ _ _); [destruct NS|reflexivity..].
    + intros x X. rewrite PK. now apply over_out.
Qed.

Lemma mprotect_ok top s n l a size P ans : rel top s n l -> kernel_allows (n_k n) (n_heap n) (OMprotect a size P ans) ->
  supported top n (OMprotect a size P ans) -> follows top s n (OMprotect a size P ans).
Proof.
  intros R KA SU. unfold follows. cbn [step native_step]. unfold handle_mprotect. destruct ans as [|x0].
  2:{ cbn in SU. subst x0. ob. eexists _, l. split; [reflexivity|].
      assert (E : forall k x, k_plug (k_mprotect a a P k) x = k_plug k x) by (intros; unfold k_mprotect; cbn; apply over_out; lia).
      destruct R as [R1 R2 R3 R4 R5 R6 R7 R8 R9]. split; cbn [s_m s_k mm_regs mm_heap n_heap n_k n_areas fst]; auto.
      - eapply lay_ext; [..|exact R2]; reflexivity.
      - destruct R3 as [P1 P2 P3]. split; intros; rewrite E in *; eauto.
      - intros x. rewrite E, R7. symmetry. apply view_same; [apply E|reflexivity|eapply shm_at; exact R3]. }
  cbn in KA, SU. destruct KA as (AA & A0 & S0 & AM & TS). destruct SU as [SU LT]. apply whole_al in SU. rewrite (rup_whole size SU) in *.
  destruct R as [R1 R2 R3 R4 R5 R6 R7 R8 R9]. rewrite R1. cbn [fst snd].
  set (k1 := k_mprotect a (a + size) P (s_k s)).
  destruct (protect_ok a (a + size) P none k1 l ltac:(lia) AA (al_add _ _ AA SU)) as (k2 & l2 & E & L2 & M2 & K1 & K2 & K3 & K4).
  { eapply lay_ext; [..|exact R2]; reflexivity. }
  destruct (im_clear (of_list l) a (a + size)) as [[m muts]|]; ob_in E; [|discriminate]. ob. rewrite E. ob.
  eexists _, l2. split; [reflexivity|].
  assert (PK : k_plug k2 = over a (a + size) (fun x => option_map (fun y => (P, snd y)) (k_plug (s_k s) x)) (k_plug (s_k s))).
  { rewrite K1. reflexivity. }
  split; cbn [s_m s_k mm_regs mm_heap n_heap n_k n_areas]; auto.
  - apply (pl_step (s_k s) k2 l l2 (fun x => ~ (a <= x < a + size)) (fun p => exists q, In q l /\ Z.max (st q) a < Z.min (en q) (a + size) /\ p = mid a (a + size) P q)); auto.
    + intros x X. rewrite PK. now apply over_out.
    + intros p I. apply M2 in I as [(q & I & A & B)|H]; [|auto]. right. exists q. split; [exact I|]. rewrite B, shift_prot. split; [reflexivity|].
      destruct p as [[b e] v]. change (st (b, e, v)) with b in *. change (en (b, e, v)) with e in *. cbn [fst snd] in *.
      destruct (rem_in a (a + size) ltac:(lia) q b e (wf_pos _ _ (la_wf _ _ _ R2) I) A) as (C1 & C2 & C3 & C4 & C5).
      split; [apply (shift_base none (s_k s) l); auto|]. intros x X. lia.
    + intros p x _ (q & I & LQ & ->) X. change (st (mid a (a + size) P q)) with (Z.max (st q) a) in X. change (en (mid a (a + size) P q)) with (Z.min (en q) (a + size)) in X.
      cbn [mid snd with_prot r_base r_prot]. rewrite PK, over_in by lia.
      pose proof (shift_base none (s_k s) l q (Z.max (st q) a) R2 I ltac:(lia)) as SB. destruct (Z.eqb_spec (r_base (shift q (Z.max (st q) a))) 0) as [Z0|Z0].
      * destruct (pl_oth _ _ R3 q x I (proj1 SB Z0) ltac:(lia)) as (pr & c & EC & NC). rewrite EC. cbn. eauto.
      * rewrite (pl_shm _ _ R3 q x I) by (try lia; tauto). reflexivity.
    + intros x X. destruct (inr_dec a (a + size) x) as [H|H].
      * left. destruct (pl_in _ _ R3 x) as (q & I & XQ); [intros C; apply X; rewrite PK, over_in by exact H; now rewrite C|].
        exists (mid a (a + size) P q). split; [apply M2; right; exists q; repeat (split; auto; try lia)|]. unfold mid, st at 1, en at 1. cbn. lia.
      * right. split; [exact H|]. intros q I XQ. destruct (rem_cover a (a + size) ltac:(lia) q x XQ H) as (b & e & J & LX). exists ((b, e), shift q b).
        split; [|exact LX]. apply M2. left. exists q. auto.
  - rewrite K3. exact R6.
  - intros x. unfold k_mprotect. cbn [set_plug k_plug]. destruct (inr_dec a (a + size) x) as [H|H].
    + rewrite over_in by exact H. rewrite R7. unfold view. rewrite PK, over_in by exact H. destruct (k_plug (s_k s) x) as [[pr c]|]; [|reflexivity]. cbn.
      f_equal. f_equal. unfold solo. rewrite K4. reflexivity.
    + rewrite over_out by exact H. rewrite R7. symmetry. apply view_same.
      * rewrite PK. now apply over_out.
      * rewrite K4. reflexivity.
      * eapply shm_at. exact R3.
  - cbn. rewrite K2, R8. reflexivity.
  - apply (areas_protect _ _ _ _ _ _ R9 M2).
Qed.
