(** Access to memory, by the process and by Shadow, keeps the relation and finds the same bytes. *)
From Verif Require Import Base IntervalModel IntervalSpec IntervalProofs MemKernel MemModel MemSpec MemLayout MemUnmap MemProtect MemRel MemSteps.

Lemma in_file top s n l x p y : rel top s n l -> k_plug (s_k s) x = Some (p, CShm y) -> y = x /\ x < rup (k_flen (s_k s)).
Proof.
  intros R E. pose proof (shm_at _ _ (re_pl _ _ _ _ R) x p y E) as ->. split; [reflexivity|].
  destruct (pl_in _ _ (re_pl _ _ _ _ R) x) as (q & I & X); [congruence|]. destruct (Z.eq_dec (base q) 0) as [Z0|Z0].
  - destruct (pl_oth _ _ (re_pl _ _ _ _ R) q x I Z0 X) as (p' & c & E' & N). rewrite E in E'. injection E' as <- <-. destruct N.
  - destruct (la_shm _ _ _ (re_lay _ _ _ _ R) q I Z0) as (_ & _ & F & _). pose proof (rup_le (k_flen (s_k s))). lia.
Qed.
Lemma load_eq top s n l x : rel top s n l -> k_load (n_k n) x = k_load (s_k s) x.
Proof.
  intros R. unfold k_load. rewrite (re_see _ _ _ _ R). unfold view. destruct (k_plug (s_k s) x) as [[p c]|] eqn:E; [|reflexivity]. cbn.
  destruct c as [y|v|o off]; cbn.
  - destruct (in_file _ _ _ _ _ _ _ R E) as [-> LT]. apply Z.ltb_lt in LT. rewrite LT. reflexivity.
  - reflexivity.
  - now rewrite (re_obj _ _ _ _ R).
Qed.
Lemma read_eq top s n l m x : rel top s n l -> k_read_prefix (n_k n) x m = k_read_prefix (s_k s) x m.
Proof. intros R. revert x. induction m as [|m IH]; intros x; cbn; [reflexivity|]. rewrite (load_eq _ _ _ _ _ R), IH. reflexivity. Qed.

Lemma s_read_ok top s n l q a m : rel top s n l -> In q l -> base q <> 0 -> st q <= a -> a + Z.of_nat m <= en q ->
  permitted p_read (n_k n) a (Z.of_nat m) ->
  s_read (s_k s) (base q + (a - st q)) m = Some (k_read_prefix (s_k s) a m) /\ length (k_read_prefix (s_k s) a m) = m.
Proof.
  intros R I NB. revert a. induction m as [|m IH]; intros a A1 A2 PE; cbn [s_read k_read_prefix]; [auto|].
  assert (X : st q <= a < en q) by lia.
  pose proof (pl_shm _ _ (re_pl _ _ _ _ R) q a I NB X) as EP. pose proof (la_map _ _ _ (re_lay _ _ _ _ R) q a I NB X) as EM.
  destruct (in_file _ _ _ _ _ _ _ R EP) as [_ LT]. apply Z.ltb_lt in LT.
  assert (PR : p_read (r_prot (snd q)) = true).
  { apply (PE a (r_prot (snd q)) (CPriv (k_file (s_k s) a))); [lia|]. rewrite (re_see _ _ _ _ R). unfold view. rewrite EP. reflexivity. }
  unfold s_load, k_load. rewrite EM, EP. cbn [backed content]. rewrite PR, LT. cbn. ob.
  replace (base q + (a - st q) + 1) with (base q + (a + 1 - st q)) by lia.
  destruct (IH (a + 1)) as [E EL]; [lia|lia| |].
  { intros x p c X0 Q. apply (PE x p c); [lia|exact Q]. }
  rewrite E. ob. split; [reflexivity|]. cbn. now rewrite EL.
Qed.

(** Shadow's own address of memory of the process *)
Lemma ptr_ok top s n l a m al : rel top s n l -> 0 < m -> 0 < al ->
  get_mapped_ptr (mm_regs (s_m s)) a m al = Some None \/
  exists q, In q l /\ base q <> 0 /\ st q <= a /\ a + m <= en q /\ get_mapped_ptr (mm_regs (s_m s)) a m al = Some (Some (base q + (a - st q))).
Proof.
  intros R M AL. unfold get_mapped_ptr. rewrite (re_map _ _ _ _ R). rewrite assert_true by lia.
  destruct (negb (a mod al =? 0)); [auto|].
  destruct (get_ok l a (la_wf _ _ _ (re_lay _ _ _ _ R))) as (g & E & H). rewrite E. ob. destruct g as [q|]; [|auto].
  destruct (proj1 (H q) eq_refl) as [I X]. destruct q as [[b e] r]. destruct (Z.eqb_spec (r_base r) 0) as [Z0|Z0]; [auto|].
  destruct (inr b e (a + m - 1)) eqn:Q; cbn [negb]; [|auto]. right. exists ((b, e), r). apply inr_iff in Q. unfold st, en in *. cbn in *.
  repeat (split; auto; try lia).
Qed.

Lemma load_ok top s n l a : rel top s n l -> follows top s n (OLoad a).
Proof. intros R. exists s, l. cbn. rewrite (load_eq _ _ _ _ _ R). auto. Qed.
Lemma other_ok top s n l o off v : rel top s n l -> follows top s n (OOther o off v).
Proof.
  intros R. eexists _, l. split; [reflexivity|]. destruct R as [R1 R2 R3 R4 R5 R6 R7 R8 R9]. split; cbn [s_m s_k n_heap n_k n_areas]; auto.
  - eapply lay_ext; [..|exact R2]; reflexivity.
  - destruct R3 as [P1 P2 P3]. split; auto.
  - cbn. now rewrite R8.
Qed.
Lemma read_ok top s n l a m al : rel top s n l -> supported top n (ORead a m al) -> follows top s n (ORead a m al).
Proof.
  intros R [AL PE]. exists s, l. cbn [step native_step fst snd]. split; [|exact R]. unfold copy_from_ptr, n_read. rewrite (read_eq _ _ _ _ _ _ R).
  destruct m as [|m]; [reflexivity|].
  destruct (ptr_ok _ _ _ _ a (Z.of_nat (S m)) al R ltac:(lia) AL) as [E|(q & I & NB & A1 & A2 & E)]; rewrite E; ob.
  - destruct (Nat.eqb _ _); reflexivity.
  - destruct (s_read_ok _ _ _ _ q a (S m) R I NB A1 A2 PE) as [E1 E2]. rewrite E1, E2, Nat.eqb_refl. ob. reflexivity.
Qed.
Lemma prefix_ok top s n l a m al : rel top s n l -> 0 < al -> permitted p_read (n_k n) a (Z.of_nat m) ->
  copy_prefix_from_ptr a m al s = Some (match m, k_read_prefix (n_k n) a m with S _, [] => None | _, r => Some r end).
Proof.
  intros R AL PE. unfold copy_prefix_from_ptr. destruct m as [|m]; [reflexivity|]. rewrite (read_eq _ _ _ _ _ _ R).
  destruct (ptr_ok _ _ _ _ a (Z.of_nat (S m)) al R ltac:(lia) AL) as [E|(q & I & NB & A1 & A2 & E)]; rewrite E; ob.
  - destruct (k_read_prefix (s_k s) a (S m)); reflexivity.
  - destruct (s_read_ok _ _ _ _ q a (S m) R I NB A1 A2 PE) as [E1 E2]. rewrite E1. ob. destruct (k_read_prefix _ _ _); [discriminate|reflexivity].
Qed.
Lemma oprefix_ok top s n l a m al : rel top s n l -> supported top n (OPrefix a m al) -> follows top s n (OPrefix a m al).
Proof.
  intros R [AL PE]. exists s, l. cbn [step native_step fst snd]. split; [|exact R]. rewrite (prefix_ok _ _ _ _ _ _ _ R AL PE). ob. unfold n_read.
  destruct m; [reflexivity|]. destruct (k_read_prefix _ _ _); reflexivity.
Qed.
Lemma string_ok top s n l a m : rel top s n l -> supported top n (OString a m) -> follows top s n (OString a m).
Proof.
  intros R PE. exists s, l. cbn [step native_step fst snd]. split; [|exact R]. rewrite (prefix_ok _ _ _ _ _ _ 1 R ltac:(lia) PE). ob. unfold n_read.
  destruct m; [reflexivity|]. destruct (k_read_prefix _ _ _); reflexivity.
Qed.

(** * Writing *)
Lemma put_rel top s n l a v p c : rel top s n l -> k_plug (s_k s) a = Some (p, c) ->
  rel top (mkSt (put (s_k s) a p c v) (s_m s)) (mkNat (put (n_k n) a p (solo (s_k s) c) v) (n_heap n) (n_areas n)) l.
Proof.
  intros R E. pose proof R as [R1 R2 R3 R4 R5 R6 R7 R8 R9]. destruct (pl_in _ _ R3 a) as (q & I & X); [congruence|].
  destruct c as [y|w|o off]; cbn [put solo].
  - destruct (in_file _ _ _ _ _ _ _ R E) as [-> LT].
    assert (NB : base q <> 0).
    { intros Z0. destruct (pl_oth _ _ R3 q a I Z0 X) as (p' & c' & E' & N). rewrite E in E'. injection E' as <- <-. destruct N. }
    split; cbn [s_m s_k n_heap n_k n_areas]; auto.
    + destruct R2 as [X1 X2 X3 X4 X5 X6 X7 X8]. split; auto. cbn. intros x NZ HG. destruct (inr_dec a (a + 1) x) as [H|H].
      * assert (x = a) by lia. subst x. exists q. auto.
      * rewrite over_out in NZ by exact H. auto.
    + destruct R3 as [P1 P2 P3]. split; auto.
    + intros x. cbn [set_plug k_plug]. destruct (inr_dec a (a + 1) x) as [H|H].
      * assert (x = a) by lia. subst x. rewrite over_in by exact H. unfold view. cbn. rewrite E. cbn. rewrite over_in by exact H. reflexivity.
      * rewrite over_out by exact H. rewrite R7. symmetry. apply view_same; cbn; auto; [now apply over_out|eapply shm_at; exact R3].
  - assert (NB : base q = 0).
    { destruct (Z.eq_dec (base q) 0) as [Z0|Z0]; [exact Z0|]. rewrite (pl_shm _ _ R3 q a I Z0 X) in E. discriminate. }
    split; cbn [s_m s_k n_heap n_k n_areas]; auto.
    + eapply lay_ext; [..|exact R2]; reflexivity.
    + destruct R3 as [P1 P2 P3]. split; cbn; intros.
      * rewrite over_out; [auto|]. intros H2. assert (x = a) by lia. subst x. rewrite (P1 q0 a) in E by auto. discriminate.
      * destruct (inr_dec a (a + 1) x) as [H2|H2]; [rewrite over_in by exact H2; eexists _, _; split; [reflexivity|exact Logic.I]|]. rewrite over_out by exact H2. eauto.
      * destruct (inr_dec a (a + 1) x) as [H2|H2]; [assert (x = a) by lia; subst x; eauto|]. rewrite over_out in H by exact H2. auto.
    + intros x. cbn [set_plug k_plug]. destruct (inr_dec a (a + 1) x) as [H|H].
      * rewrite over_in by exact H. unfold view. cbn. rewrite over_in by exact H. reflexivity.
      * rewrite over_out by exact H. rewrite R7. symmetry. apply view_same; cbn; auto; [now apply over_out|eapply shm_at; exact R3].
  - split; cbn [s_m s_k n_heap n_k n_areas]; auto.
    + eapply lay_ext; [..|exact R2]; reflexivity.
    + destruct R3 as [P1 P2 P3]. split; auto.
    + cbn. now rewrite R8.
Qed.
Lemma store_sim top s n l a v : rel top s n l ->
  match k_store (s_k s) a v, k_store (n_k n) a v with
  | Some k', Some nk' => rel top (mkSt k' (s_m s)) (mkNat nk' (n_heap n) (n_areas n)) l
  | None, None => True
  | _, _ => False
  end.
Proof.
  intros R. unfold k_store. rewrite (re_see _ _ _ _ R). unfold view. destruct (k_plug (s_k s) a) as [[p c]|] eqn:E; cbn [option_map fst snd]; [|exact Logic.I].
  pose proof (put_rel _ _ _ _ a v p c R E) as PR. destruct (p_write p); cbn [andb]; [|exact Logic.I].
  destruct c as [y|w|o off]; cbn [backed solo] in *; auto. destruct (in_file _ _ _ _ _ _ _ R E) as [-> LT]. apply Z.ltb_lt in LT. rewrite LT. exact PR.
Qed.
Lemma store_ok top s n l a v : rel top s n l -> follows top s n (OStore a v).
Proof.
  intros R. unfold follows. cbn [step native_step]. pose proof (store_sim _ _ _ _ a v R) as S0.
  destruct (k_store (s_k s) a v), (k_store (n_k n) a v); try contradiction; cbn [fst snd]; eauto.
Qed.
Lemma write_sim top s n l vs : rel top s n l -> forall a,
  snd (k_write_prefix (s_k s) a vs) = snd (k_write_prefix (n_k n) a vs) /\
  rel top (mkSt (fst (k_write_prefix (s_k s) a vs)) (s_m s)) (mkNat (fst (k_write_prefix (n_k n) a vs)) (n_heap n) (n_areas n)) l.
Proof.
  revert s n. induction vs as [|v vs IH]; intros s n R a; cbn [k_write_prefix].
  { cbn [fst snd]. split; [reflexivity|]. destruct s, n; exact R. }
  pose proof (store_sim _ _ _ _ a v R) as S0.
  destruct (k_store (s_k s) a v) as [k'|], (k_store (n_k n) a v) as [nk'|]; try contradiction.
  - destruct (IH _ _ S0 (a + 1)) as [E R']. cbn [s_k s_m n_k n_heap n_areas] in *.
    destruct (k_write_prefix k' (a + 1) vs), (k_write_prefix nk' (a + 1) vs). cbn [fst snd] in *. split; [now rewrite E|exact R'].
  - cbn [fst snd]. split; [reflexivity|]. destruct s, n; exact R.
Qed.

Lemma s_write_eq q vs : forall k a, base q <> 0 -> p_write (r_prot (snd q)) = true ->
  (forall x, a <= x < a + Z.of_nat (length vs) -> k_plug k x = Some (r_prot (snd q), CShm x) /\ k_shad k (base q + (x - st q)) = Some (r_prot (snd q), x) /\ x < rup (k_flen k)) ->
  s_write k (base q + (a - st q)) vs = Some (fst (k_write_prefix k a vs)) /\ snd (k_write_prefix k a vs) = length vs.
Proof.
  induction vs as [|v vs IH]; intros k a NB PW H; cbn [s_write k_write_prefix]; [auto|].
  cbn [length] in H. destruct (H a) as (E1 & E2 & E3); [lia|]. apply Z.ltb_lt in E3.
  unfold s_store, k_store. rewrite E1, E2. cbn [backed]. rewrite PW, E3. cbn [andb put]. ob.
  replace (base q + (a - st q) + 1) with (base q + (a + 1 - st q)) by lia.
  destruct (IH (set_file (over a (a + 1) (fun _ => v) (k_file k)) k) (a + 1) NB PW) as [E4 E5].
  { intros x X. cbn. apply H. lia. }
  rewrite E4. destruct (k_write_prefix _ (a + 1) vs). cbn [fst snd] in *. split; [reflexivity|]. now rewrite E5.
Qed.
Lemma all_written vs : forall k a, (forall x, a <= x < a + Z.of_nat (length vs) -> exists p c, k_plug k x = Some (p, c) /\ p_write p = true /\ not_shm c) ->
  snd (k_write_prefix k a vs) = length vs.
Proof.
  induction vs as [|v vs IH]; intros k a H; cbn [k_write_prefix]; [reflexivity|].
  cbn [length] in H. destruct (H a) as (p & c & E & PW & NS); [lia|]. unfold k_store. rewrite E, PW.
  assert (B : backed k c = true) by (destruct c; [destruct NS|reflexivity..]). rewrite B. cbn [andb].
  specialize (IH (put k a p c v) (a + 1)). destruct (k_write_prefix (put k a p c v) (a + 1) vs) as [k2 m]. cbn [snd length] in *. f_equal. apply IH.
  intros x X. destruct (H x) as (p' & c' & E' & PW' & NS'); [lia|]. exists p', c'. split; [|auto]. destruct c; [destruct NS|..]; cbn; auto.
  rewrite over_out by lia. exact E'.
Qed.
Lemma native_not_shm top s n l x p c : rel top s n l -> k_plug (n_k n) x = Some (p, c) -> not_shm c.
Proof.
  intros R. rewrite (re_see _ _ _ _ R). unfold view. destruct (k_plug (s_k s) x) as [[p' c']|]; [|discriminate]. cbn. intros [= <- <-]. destruct c'; exact Logic.I.
Qed.
Lemma write_ok top s n l a vs al : rel top s n l -> supported top n (OWrite a vs al) -> follows top s n (OWrite a vs al).
Proof.
  intros R (AL & PE & AM). unfold follows. cbn [step native_step]. destruct (write_sim _ _ _ _ vs R a) as [EL RR]. unfold copy_to_ptr.
  destruct vs as [|v vs].
  { ob. cbn. exists s, l. split; [reflexivity|]. destruct n; exact R. }
  set (w := v :: vs) in *.
  assert (LW : 0 < Z.of_nat (length w)) by (cbn; lia).
  destruct (k_write_prefix (n_k n) a w) as [nk m] eqn:EN. destruct (k_write_prefix (s_k s) a w) as [k' m'] eqn:EK. cbn [fst snd] in *. subst m'.
  assert (FULL : all_mapped (n_k n) a (a + Z.of_nat (length w)) -> m = length w).
  { intros H. replace m with (snd (k_write_prefix (n_k n) a w)) by now rewrite EN. apply all_written. intros x X. specialize (H x X).
    destruct (k_plug (n_k n) x) as [[p c]|] eqn:E; [|congruence]. exists p, c. split; [reflexivity|]. split; [apply (PE x p c X E)|exact (native_not_shm top s n l x p c R E)]. }
  destruct (ptr_ok _ _ _ _ a (Z.of_nat (length w)) al R LW AL) as [E|(q & I & NB & A1 & A2 & E)]; rewrite E; ob.
  - destruct AM as [AM|AM].
    + rewrite (FULL AM), Nat.eqb_refl. destruct (Nat.eqb_spec (length w) 0) as [E0|E0]; [lia|]. rewrite assert_true by reflexivity. ob. cbn [fst snd]. eauto.
    + assert (m = 0%nat /\ nk = n_k n) as [-> ->].
      { unfold w in EN. cbn in EN. unfold k_store in EN. rewrite AM in EN. injection EN as <- <-. auto. }
      cbn. exists s, l. split; [reflexivity|]. destruct n; exact R.
  - destruct (s_write_eq q w (s_k s) a NB) as [E1 E2].
    + apply (PE a _ (CPriv (k_file (s_k s) a))); [lia|]. rewrite (re_see _ _ _ _ R). unfold view.
      rewrite (pl_shm _ _ (re_pl _ _ _ _ R) q a I NB ltac:(lia)). reflexivity.
    + intros x X. assert (X' : st q <= x < en q) by lia. pose proof (pl_shm _ _ (re_pl _ _ _ _ R) q x I NB X') as EP. split; [exact EP|].
      split; [exact (la_map _ _ _ (re_lay _ _ _ _ R) q x I NB X')|]. apply (in_file _ _ _ _ _ _ _ R EP).
    + rewrite E1. rewrite EK in *. cbn [fst snd] in *. subst m. rewrite Nat.eqb_refl. ob. cbn [fst snd]. eauto.
Qed.
