(** A new mapper is in relation to the process. *)
From Verif Require Import Base IntervalModel IntervalSpec IntervalProofs MemKernel MemModel MemSpec MemStart MemLayout MemUnmap MemProtect MemRel MemSteps MemGrow.

Definition ent_of (q : pmap) : ent := let '(i, (p, sh, pa)) := q in (i, mkReg 0 p sh pa).

Lemma ordered_in l : forall lo q, ordered lo l -> In q l ->
  lo <= fst (fst q) /\ fst (fst q) < snd (fst q) /\ snd (fst q) <= TASK_SIZE /\ aligned (fst (fst q)) /\ aligned (snd (fst q)).
Proof.
  induction l as [|[[s e] a] l IH]; intros lo q O I; [destruct I|]. cbn in O. destruct O as (O1 & O2 & O3 & O4 & O5 & O6).
  destruct I as [<-|I]; [cbn; auto|]. destruct (IH e q O6 I) as (A & B). split; [lia|exact B].
Qed.
Lemma st_of q : st (ent_of q) = fst (fst q).
Proof. destruct q as [[s e] [[p sh] pa]]. reflexivity. Qed.
Lemma en_of q : en (ent_of q) = snd (fst q).
Proof. destruct q as [[s e] [[p sh] pa]]. reflexivity. Qed.
Lemma base_of q : base (ent_of q) = 0.
Proof. destruct q as [[s e] [[p sh] pa]]. reflexivity. Qed.
Lemma ordered_wf l : forall lo, ordered lo l -> WF (map ent_of l).
Proof.
  induction l as [|[[s e] a] l IH]; intros lo O; [apply wf_nil|]. cbn in O. destruct O as (O1 & O2 & O3 & O4 & O5 & O6). cbn [map]. apply wf_cons.
  rewrite st_of, en_of. cbn. split; [lia|]. split; [eauto|]. apply Forall_forall. intros q I. apply in_map_iff in I as (q' & <- & I).
  rewrite st_of. apply (ordered_in l e q' O6 I).
Qed.

(** * Reading the lines *)
Lemma wf_ext (l l' : list ent) : WF l -> WF l' -> (forall p, In p l <-> In p l') -> l = l'.
Proof.
  revert l'. induction l as [|a l IH]; intros [|b l'] W W' H.
  - reflexivity.
  - destruct (proj2 (H b)). cbn. auto.
  - destruct (proj1 (H a)). cbn. auto.
  - apply wf_cons in W as (P & W & F). apply wf_cons in W' as (P' & W' & F'). rewrite Forall_forall in F, F'.
    assert (a = b).
    { destruct (proj1 (H a) (or_introl eq_refl)) as [E|I]; [auto|]. destruct (proj2 (H b) (or_introl eq_refl)) as [E|J]; [auto|].
      specialize (F b J). specialize (F' a I). lia. }
    subst b. f_equal. apply IH; auto. intros p. split; intros I.
    + destruct (proj1 (H p) (or_intror I)) as [E|J]; [|exact J]. subst p. specialize (F a I). lia.
    + destruct (proj2 (H p) (or_intror I)) as [E|J]; [|exact J]. subst p. specialize (F' a I). lia.
Qed.
Lemma insert_end (o : list ent) s e r : WF (o ++ [((s, e), r)]) -> im_insert (of_list o) s e r = Some (of_list (o ++ [((s, e), r)]), []).
Proof.
  intros W. pose proof W as W0. apply wf_app in W0 as (W1 & W2 & D). apply wf_cons in W2 as (P & _). unfold st, en in P. cbn in P.
  destruct (insert_ok s e r o P W1) as (l' & E & W' & M).
  { intros p I. left. exact (D p ((s, e), r) I (or_introl eq_refl)). }
  rewrite E. do 3 f_equal. apply wf_ext; auto. intros p. rewrite (M p), in_app_iff. cbn. intuition congruence.
Qed.
Lemma regions_ok l : forall o : list ent, WF (o ++ map ent_of l) -> get_regions (of_list o) l = Some (of_list (o ++ map ent_of l)).
Proof.
  induction l as [|[[s e] [[p sh] pa]] l IH]; intros o W; cbn [get_regions map]; [now rewrite app_nil_r|].
  cbn [map ent_of] in W. assert (E : o ++ (s, e, mkReg 0 p sh pa) :: map ent_of l = (o ++ [(s, e, mkReg 0 p sh pa)]) ++ map ent_of l) by now rewrite <- app_assoc.
  rewrite insert_end.
  - ob. etransitivity; [apply (IH (o ++ [((s, e), mkReg 0 p sh pa)])); rewrite <- E; exact W|]. rewrite <- E. reflexivity.
  - change (WF (o ++ (s, e, mkReg 0 p sh pa) :: map ent_of l)) in W. rewrite E in W. apply wf_app in W as (W & _). exact W.
Qed.

Lemma bool_eqb a b : Bool.eqb a b = true <-> a = b.
Proof. destruct a, b; cbn; intuition congruence. Qed.
Lemma prot_eq a b : prot_eqb a b = true <-> a = b.
Proof. unfold prot_eqb. rewrite andb_true_iff, !bool_eqb. destruct a, b; cbn. intuition congruence. Qed.
Lemma path_eq a b : path_eqb a b = true <-> a = b.
Proof. destruct a as [[| |]|], b as [[| |]|]; cbn; rewrite ?Z.eqb_eq; intuition congruence. Qed.
Lemma region_eq p sh pa p' sh' pa' : region_eqb (mkReg 0 p sh pa) (mkReg 0 p' sh' pa') = if attr_dec (p', sh', pa') (p, sh, pa) then true else false.
Proof.
  apply eq_true_iff_eq. unfold region_eqb. cbn [r_base r_prot r_shared r_path]. rewrite Z.eqb_refl. rewrite !andb_true_iff, prot_eq, path_eq, bool_eqb. destruct (attr_dec _ _) as [E|N].
  - injection E as -> -> ->. tauto.
  - split; [|discriminate]. intros [[[_ A] B] C]. destruct N. congruence.
Qed.

Lemma join_head s e a r : exists e' t, join (((s, e), a) :: r) = ((s, e'), a) :: t.
Proof.
  cbn [join]. destruct (join r) as [|[[s' e'] a'] t]; [eauto|]. destruct (_ && _); eauto.
Qed.
Lemma join_merge s m e a r : join (((s, m), a) :: ((m, e), a) :: r) = join (((s, e), a) :: r).
Proof.
  cbn [join]. destruct (join r) as [|[[s' e'] a'] t].
  - rewrite Z.eqb_refl. destruct (attr_dec a a); [reflexivity|congruence].
  - destruct ((e =? s') && _) eqn:E.
    + rewrite Z.eqb_refl. destruct (attr_dec a a); [reflexivity|congruence].
    + rewrite Z.eqb_refl. destruct (attr_dec a a); [reflexivity|congruence].
Qed.
Lemma join_apart s e a s' e' a' r : (e =? s') && (if attr_dec a a' then true else false) = false ->
  join (((s, e), a) :: ((s', e'), a') :: r) = ((s, e), a) :: join (((s', e'), a') :: r).
Proof.
  intros H. destruct (join_head s' e' a' r) as (e2 & t & E). change (join (((s, e), a) :: ((s', e'), a') :: r)) with
    (match join (((s', e'), a') :: r) with ((s0, e0), a0) :: t => if (e =? s0) && (if attr_dec a a0 then true else false) then ((s, e0), a) :: t else ((s, e), a) :: ((s0, e0), a0) :: t | [] => [((s, e), a)] end).
  rewrite E, H. reflexivity.
Qed.
Lemma join_ordered l : forall lo, ordered lo l -> ordered lo (join l).
Proof.
  induction l as [|[[s e] a] l IH]; intros lo O; [exact Logic.I|]. cbn in O. destruct O as (O1 & O2 & O3 & O4 & O5 & O6). specialize (IH e O6). cbn [join].
  destruct (join l) as [|[[s' e'] a'] t]; [cbn; tauto|]. cbn in IH. destruct IH as (I1 & I2 & I3 & I4 & I5 & I6).
  destruct ((e =? s') && _) eqn:E; cbn.
  - apply andb_true_iff in E as [E _]. apply Z.eqb_eq in E. subst s'. repeat (split; [first [assumption|lia]|]). assumption.
  - repeat (split; [first [assumption|lia]|]). assumption.
Qed.
Lemma join_cover l x : (exists s e a, In ((s, e), a) (join l) /\ s <= x < e) -> exists s e a, In ((s, e), a) l /\ s <= x < e.
Proof.
  induction l as [|[[s e] a] l IH]; intros (s0 & e0 & a0 & I & X); [destruct I|]. cbn [join] in I.
  assert (REC : (exists s1 e1 a1, In ((s1, e1), a1) (join l) /\ s1 <= x < e1) -> exists s1 e1 a1, In ((s1, e1), a1) (((s, e), a) :: l) /\ s1 <= x < e1).
  { intros H. destruct (IH H) as (s1 & e1 & a1 & J & Y). exists s1, e1, a1. cbn. auto. }
  destruct (join l) as [|[[s' e'] a'] t].
  - destruct I as [E|[]]. injection E as <- <- <-. exists s, e, a. cbn. auto.
  - destruct ((e =? s') && _) eqn:Q.
    + apply andb_true_iff in Q as [Q _]. apply Z.eqb_eq in Q. subst s'. destruct I as [E|I].
      * injection E as <- <- <-. destruct (Z_lt_ge_dec x e); [exists s, e, a; cbn; split; [auto|lia]|]. apply REC. exists e, e', a'. cbn. split; [auto|lia].
      * apply REC. exists s0, e0, a0. cbn. auto.
    + destruct I as [E|I]; [injection E as <- <- <-; exists s, e, a; cbn; auto|]. apply REC. exists s0, e0, a0. auto.
Qed.
Lemma cover_join l : forall lo x, ordered lo l -> (exists s e a, In ((s, e), a) l /\ s <= x < e) -> exists s e a, In ((s, e), a) (join l) /\ s <= x < e.
Proof.
  induction l as [|[[s e] a] l IH]; intros lo x O (s0 & e0 & a0 & I & X); [destruct I|]. cbn in O. destruct O as (O1 & O2 & O3 & O4 & O5 & O6).
  pose proof (join_ordered l e O6) as OJ. specialize (IH e x O6). cbn [join]. destruct I as [E|I].
  - injection E as <- <- <-. destruct (join l) as [|[[s' e'] a'] t]; [exists s, e, a; cbn; auto|]. cbn in OJ.
    destruct ((e =? s') && _) eqn:Q; [exists s, e', a; cbn; split; [auto|lia]|exists s, e, a; cbn; auto].
  - assert (H : exists s0 e0 a0, In ((s0, e0), a0) l /\ s0 <= x < e0) by eauto. destruct (IH H) as (s1 & e1 & a1 & J & Y).
    destruct (join l) as [|[[s' e'] a'] t]; [destruct J|]. cbn in OJ. destruct ((e =? s') && _) eqn:Q.
    + destruct J as [E|J]; [injection E as <- <- <-; exists s, e', a; cbn; split; [auto|lia]|]. exists s1, e1, a1. cbn. auto.
    + exists s1, e1, a1. cbn. cbn in J. auto.
Qed.

Lemma coalesce_ok l : forall (o : list ent) a lo, ordered lo (a :: l) -> WF (o ++ map ent_of (join (a :: l))) ->
  coalesce_from (of_list o) (Some (ent_of a)) (map ent_of l) = Some (of_list (o ++ map ent_of (join (a :: l)))).
Proof.
  induction l as [|[[s' e'] [[p' sh'] pa']] l IH]; intros o [[s e] [[p sh] pa]] lo O W; cbn [coalesce_from map ent_of].
  - cbn [join map ent_of] in *. rewrite insert_end by exact W. reflexivity.
  - cbn [r_base]. rewrite assert_true by reflexivity. rewrite region_eq. rewrite Z.eqb_sym.
    destruct ((e =? s') && _) eqn:Q.
    + apply andb_true_iff in Q as [Q1 Q2]. apply Z.eqb_eq in Q1. subst s'. destruct (attr_dec _ _) as [E|]; [|discriminate]. injection E as <- <- <-.
      rewrite join_merge in *. apply (IH o ((s, e'), (p, sh, pa)) lo); [|exact W].
      cbn in O |- *. destruct O as (O1 & O2 & O3 & O4 & O5 & O6 & O7 & O8 & O9 & O10 & O11). repeat (split; [first [assumption|lia]|]). assumption.
    + rewrite join_apart in * by exact Q. cbn [map ent_of] in *.
      assert (E : forall r : list ent, o ++ (s, e, mkReg 0 p sh pa) :: r = (o ++ [(s, e, mkReg 0 p sh pa)]) ++ r) by (intros; now rewrite <- app_assoc).
      rewrite insert_end.
      2:{ pose proof W as W1. rewrite E in W1. apply wf_app in W1 as (W1 & _). exact W1. }
      ob. etransitivity; [apply (IH (o ++ [((s, e), mkReg 0 p sh pa)]) ((s', e'), (p', sh', pa')) e); [cbn in O; cbn; tauto|rewrite <- E; exact W]|].
      rewrite <- E. reflexivity.
Qed.
Lemma regions_start l : ordered 0 l -> exists m, get_regions im_new l = Some m /\ coalesce_regions m = Some (of_list (map ent_of (join l))).
Proof.
  intros O. exists (of_list (map ent_of l)). split; [exact (regions_ok l [] (ordered_wf l 0 O))|].
  unfold coalesce_regions, im_iter. rewrite items_of_list. cbn [skipn]. destruct l as [|a l]; [reflexivity|]. cbn [map].
  destruct a as [[s e] [[p sh] pa]] eqn:EA. cbn [coalesce_from ent_of r_base]. rewrite assert_true by reflexivity.
  apply (coalesce_ok l [] ((s, e), (p, sh, pa)) 0 O). apply (ordered_wf _ 0). exact (join_ordered _ 0 O).
Qed.
Lemma lines_of pa a l : akind_of (Some pa) = a -> a <> KMap -> filter (is_path pa) (map ent_of l) = map ent_of (lines a l).
Proof.
  intros E N. induction l as [|[i [[p sh] q]] l IH]; [reflexivity|]. cbn [map filter lines ent_of]. unfold is_path at 1. cbn [snd r_path fst].
  unfold lines in IH. rewrite IH.
  destruct pa; cbn in E; subst a; [| |congruence]; destruct q as [[| |]|]; reflexivity.
Qed.

(** * Taking over a range *)
Lemma fill_ok l : forall k y o p, p_write p = true ->
  (forall i, 0 <= i < Z.of_nat (length l) -> k_shad k (y + i) = Some (p, o + i) /\ o + i < rup (k_flen k)) ->
  exists k', s_write k y l = Some k' /\ k_shad k' = k_shad k /\ k_plug k' = k_plug k /\ k_obj k' = k_obj k /\ k_flen k' = k_flen k /\
    forall x, k_file k' x = if inr o (o + Z.of_nat (length l)) x then nth (Z.to_nat (x - o)) l 0 else k_file k x.
Proof.
  induction l as [|v l IH]; intros k y o p PW H.
  - exists k. cbn. repeat (split; auto). intros x. rewrite (proj2 (inr_no o _ x)) by lia. reflexivity.
  - cbn [s_write]. destruct (H 0 ltac:(cbn [length]; lia)) as [E1 E2]. rewrite (Z.add_0_r y) in E1. rewrite (Z.add_0_r o) in E1, E2. apply Z.ltb_lt in E2.
    unfold s_store. rewrite E1. cbv iota beta. rewrite PW, E2. cbn [andb]. ob.
    set (k1 := set_file _ k). destruct (IH k1 (y + 1) (o + 1) p PW) as (k' & E & A & B & C & D & F).
    { intros i Hi. unfold k1. cbn. replace (y + 1 + i) with (y + (1 + i)) by lia. replace (o + 1 + i) with (o + (1 + i)) by lia. apply H. cbn [length]. lia. }
    exists k'. rewrite E. split; [reflexivity|]. rewrite A, B, C, D. repeat (split; [reflexivity|]). intros x. rewrite F. unfold k1. cbn [set_file k_file length].
    destruct (inr_dec (o + 1) (o + 1 + Z.of_nat (length l)) x) as [X|X]; [|destruct (Z.eq_dec x o) as [->|N]].
    + rewrite (proj2 (inr_iff _ _ _) X), (proj2 (inr_iff o (o + Z.of_nat (S (length l))) x) ltac:(lia)).
      replace (Z.to_nat (x - o)) with (S (Z.to_nat (x - (o + 1)))) by lia. reflexivity.
    + rewrite (proj2 (inr_no _ _ _) X), (proj2 (inr_iff o (o + Z.of_nat (S (length l))) o) ltac:(lia)). rewrite over_in by lia. now rewrite Z.sub_diag.
    + rewrite (proj2 (inr_no _ _ _) X), (proj2 (inr_no o (o + Z.of_nat (S (length l))) x) ltac:(lia)). rewrite over_out by lia. reflexivity.
Qed.
Lemma prefix_ok k m : forall a, (forall x, a <= x < a + Z.of_nat m -> exists v, k_plug k x = Some (RW, CPriv v)) ->
  length (k_read_prefix k a m) = m /\
  forall x v, a <= x < a + Z.of_nat m -> k_plug k x = Some (RW, CPriv v) -> nth (Z.to_nat (x - a)) (k_read_prefix k a m) 0 = v.
Proof.
  induction m as [|m IH]; intros a H; cbn [k_read_prefix]; [split; [reflexivity|lia]|].
  destruct (H a ltac:(lia)) as (v & E). unfold k_load. rewrite E. cbn [RW p_read backed andb content].
  destruct (IH (a + 1)) as [L N]; [intros x X; apply H; lia|]. split; [cbn; now rewrite L|]. intros x w X EW.
  destruct (Z.eq_dec x a) as [->|NE]; [rewrite Z.sub_diag; rewrite E in EW; injection EW as <-; reflexivity|].
  replace (Z.to_nat (x - a)) with (S (Z.to_nat (x - (a + 1)))) by lia. cbn [nth]. apply N; [lia|exact EW].
Qed.

Lemma put_ok s t cs b r k kA l l0 l3 :
  lay none k l0 -> pl k l -> (forall p, In p l0 <-> exists q, In q l /\ In (fst p) (rem s t q) /\ snd p = snd q) -> WF l ->
  WF l3 -> (forall p, In p l3 <-> p = ((s, t), r) \/ In p l0) ->
  s < t -> s <= cs <= t -> aligned s -> aligned t -> 0 <= s -> t <= TASK_SIZE ->
  r_base r = b -> aligned b -> 0 < b -> not_file (r_path r) -> r_prot r = RW ->
  k_plug kA = k_plug k -> k_file kA = k_file k -> k_obj kA = k_obj k -> k_flen k <= k_flen kA -> t <= k_flen kA ->
  k_shad kA = over b (b + (t - s)) (fun y => Some (RW, s + (y - b))) (k_shad k) ->
  (forall y, b <= y < b + (t - s) -> k_shad k y = None) ->
  (forall x, cs <= x < t -> exists v, k_plug k x = Some (RW, CPriv v)) -> unmapped k s cs ->
  exists kB, (if cs <? t then copy_into_file s t b cs t kA else Some kA) = Some kB /\
    lay none (mmap_into_plugin s t RW kB) l3 /\ pl (mmap_into_plugin s t RW kB) l3 /\
    k_obj (mmap_into_plugin s t RW kB) = k_obj k /\ k_flen (mmap_into_plugin s t RW kB) = k_flen kA /\
    k_shad (mmap_into_plugin s t RW kB) = k_shad kA /\
    (forall x, ~ (s <= x < t) -> k_plug (mmap_into_plugin s t RW kB) x = k_plug k x) /\
    (forall x, view (mmap_into_plugin s t RW kB) x = if inr s cs x then Some (RW, CPriv 0) else view k x).
Proof.
  intros L P M WL W3 M3 LT CS AS AT S0 TT EB AB B0 NF PR A1 A2 A3 A4 A5 A6 FR SM UM. pose proof task_max as TM.
  assert (FREE : forall q x, In q l0 -> st q <= x < en q -> ~ (s <= x < t)).
  { intros p x I X. apply M in I as (q & I & J & E). pose proof (wf_pos _ _ WL I) as PQ. destruct p as [[b0 e0] v]. apply rem_in in J; auto. change (st (b0, e0, v)) with b0 in *. change (en (b0, e0, v)) with e0 in *. lia. }
  assert (FZ : forall x, s <= x < t -> k_file k x = 0).
  { intros x X. destruct (Z.eq_dec (k_file k x) 0) as [E|NZ]; [exact E|]. destruct (la_zero _ _ _ L x NZ eq_refl) as (q & I & _ & Y). destruct (FREE q x I Y X). }
  assert (C : exists kB, (if cs <? t then copy_into_file s t b cs t kA else Some kA) = Some kB /\
    k_shad kB = k_shad kA /\ k_plug kB = k_plug k /\ k_obj kB = k_obj k /\ k_flen kB = k_flen kA /\
    (forall x, ~ (cs <= x < t) -> k_file kB x = k_file k x) /\ (forall x v, cs <= x < t -> k_plug k x = Some (RW, CPriv v) -> k_file kB x = v)).
  { destruct (Z.ltb_spec cs t) as [H|H].
    - unfold copy_into_file. rewrite (proj2 (Z.leb_gt t cs)) by lia. rewrite assert_true by (apply negb_true_iff, Z.eqb_neq; lia).
      rewrite assert_true by (apply inr_iff; lia). rewrite assert_true by (apply inr_iff; lia).
      destruct (prefix_ok kA (Z.to_nat (t - cs)) cs) as [EL N].
      { intros x X. rewrite A1. apply SM. lia. }
      rewrite assert_true by (apply Z.eqb_eq; rewrite EL; lia).
      destruct (fill_ok (k_read_prefix kA cs (Z.to_nat (t - cs))) kA (b + (cs - s)) cs RW eq_refl) as (kB & E & B1 & B2 & B3 & B4 & B5).
      { rewrite EL. intros i Hi. rewrite A6, over_in by lia. split; [do 2 f_equal; lia|]. pose proof (rup_le (k_flen kA)). lia. }
      exists kB. rewrite B1, B2, B3, B4. repeat (split; [assumption || reflexivity|]). rewrite EL in B5. split.
      + intros x X. rewrite B5, (proj2 (inr_no cs _ x)) by lia. now rewrite A2.
      + intros x v X EV. rewrite B5, (proj2 (inr_iff cs _ x)) by lia. apply N; [lia|]. now rewrite A1.
    - exists kA. repeat (split; [assumption || reflexivity|]). split; [intros; now rewrite A2|lia]. }
  destruct C as (kB & EC & C1 & C2 & C3 & C4 & C5 & C6). exists kB. split; [exact EC|].
  unfold mmap_into_plugin. rewrite (rup_whole (t - s)) by (apply al_sub; auto). replace (s + (t - s)) with t by lia.
  set (kC := set_plug _ kB).
  assert (PI : forall x, s <= x < t -> k_plug kC x = Some (RW, CShm x)).
  { intros x X. unfold kC. cbn. rewrite over_in by exact X. do 3 f_equal. lia. }
  assert (PO : forall x, ~ (s <= x < t) -> k_plug kC x = k_plug k x).
  { intros x X. unfold kC. cbn. rewrite over_out by exact X. now rewrite C2. }
  split; [|split; [|split; [|split; [|split; [|split]]]]].
  - apply (lay_put none k kC l0 l3 s t r b); auto; unfold kC; cbn; rewrite ?C4; auto; try lia.
    + intros y Y. rewrite C1, A6, over_in by exact Y. now rewrite PR.
    + intros y Y p x. rewrite C1, A6, over_out by exact Y. unfold none. tauto.
    + intros y Y p x E. rewrite FR in E by exact Y. discriminate.
    + intros x X. destruct (inr_dec s t x) as [H|H]; [auto|]. left. split; [|reflexivity]. rewrite C5 in X by lia. exact X.
  - apply (pl_step k kC l l3 (fun x => ~ (s <= x < t)) (fun p => p = ((s, t), r))); auto.
    + intros p I. apply M3 in I as [->|I]; [auto|]. right. pose proof I as I0. apply M in I as (q & I & J & E). exists q. split; [exact I|].
      unfold base. rewrite E. split; [reflexivity|]. split; [tauto|]. intros x X. split; [|exact (FREE p x I0 X)].
      pose proof (wf_pos _ _ WL I) as PQ. destruct p as [[b0 e0] v]. apply rem_in in J; auto. change (st (b0, e0, v)) with b0 in *. change (en (b0, e0, v)) with e0 in *. lia.
    + intros p x _ -> X. cbn [snd]. destruct (Z.eqb_spec (r_base r) 0); [lia|]. rewrite PR. apply PI. exact X.
    + intros x X. destruct (inr_dec s t x) as [H|H].
      * left. exists ((s, t), r). split; [apply M3; auto|exact H].
      * right. split; [exact H|]. intros q I XQ. destruct (rem_cover s t LT q x XQ H) as (b0 & e0 & J & Y). exists ((b0, e0), snd q).
        split; [apply M3; right; apply M; exists q; auto|exact Y].
  - exact C3.
  - exact C4.
  - exact C1.
  - exact PO.
  - intros x. destruct (inr_dec s t x) as [H|H].
    + unfold view at 1. rewrite PI by exact H. cbn. destruct (inr_dec s cs x) as [H2|H2].
      * rewrite (proj2 (inr_iff s cs x) H2). rewrite C5 by lia. now rewrite FZ.
      * rewrite (proj2 (inr_no s cs x) H2). destruct (SM x ltac:(lia)) as (v & E). unfold view. rewrite E. cbn. do 3 f_equal. apply C6; [lia|exact E].
    + rewrite (proj2 (inr_no s cs x)) by lia. apply view_same; [auto| |eapply shm_at; exact P]. unfold kC. cbn. apply C5. lia.
Qed.

(** * Putting it together *)
Lemma rem_al s t q b e : s < t -> aligned s -> aligned t -> aligned (st q) -> aligned (en q) -> st q < en q -> In (b, e) (rem s t q) -> aligned b /\ aligned e.
Proof.
  intros LT A1 A2 A3 A4 P I. unfold rem, remainder in I. apply in_app_iff in I as [I|I].
  - destruct (_ <? _); [|destruct I]. destruct I as [E|[]]. injection E as <- <-. split; [exact A3|]. destruct (Z.min_spec (en q) s) as [[_ ->]|[_ ->]]; auto.
  - destruct (_ <? _); [|destruct I]. destruct I as [E|[]]. injection E as <- <-. split; [|exact A4]. destruct (Z.max_spec (st q) t) as [[_ ->]|[_ ->]]; auto.
Qed.
Lemma lay_plain k l : WF l -> (forall q, In q l -> aligned (st q) /\ aligned (en q) /\ 0 <= st q /\ en q <= U64_MAX) ->
  (forall q, In q l -> base q = 0) -> (forall q, In q l -> r_path (snd q) <> Some PHeap) -> (forall y, k_shad k y = None) -> (forall x, k_file k x = 0) -> lay none k l.
Proof.
  intros W A B H S F. split; auto.
  - intros q I NB. destruct (NB (B q I)).
  - intros q I PH. destruct (H q I PH).
  - intros q x I NB. destruct (NB (B q I)).
  - intros y p x E. rewrite S in E. discriminate.
  - intros x X. destruct (X (F x)).
Qed.
Lemma lay_rest s t k l l0 : s < t -> aligned s -> aligned t -> lay none k l -> WF l0 ->
  (forall p, In p l0 <-> exists q, In q l /\ In (fst p) (rem s t q) /\ snd p = snd q) ->
  (forall q, In q l -> base q <> 0 -> en q <= s \/ t <= st q) -> lay none k l0.
Proof.
  intros LT AS AT L W0 M D. pose proof (la_wf _ _ _ L) as W.
  assert (KEEP : forall p, In p l0 -> base p <> 0 -> In p l).
  { intros p I NB. apply M in I as (q & I & J & E). unfold base in NB. rewrite E in NB. pose proof (wf_pos _ _ W I) as P.
    rewrite rem_out in J by auto. destruct J as [J|[]]. assert (p = q) by (destruct p, q; cbn in *; congruence). now subst p. }
  assert (BACK : forall q, In q l -> base q <> 0 -> In q l0).
  { intros q I NB. apply M. exists q. split; [exact I|]. rewrite rem_out by (auto; exact (wf_pos _ _ W I)). cbn. auto. }
  split.
  - exact W0.
  - intros p I. apply M in I as (q & I & J & E). destruct (la_al _ _ _ L q I) as (A1 & A2 & A3 & A4). pose proof (wf_pos _ _ W I) as P.
    destruct p as [[b e] v]. destruct (rem_al s t q b e LT AS AT A1 A2 P J). apply rem_in in J; auto. change (st (b, e, v)) with b. change (en (b, e, v)) with e. split; [assumption|]. split; [assumption|]. lia.
  - intros p I NB. apply (la_shm _ _ _ L); auto.
  - intros p I PH. pose proof I as I0. apply M in I as (q & I & J & E). rewrite E in PH. unfold base. rewrite E. exact (la_heap _ _ _ L q I PH).
  - intros p x I NB. apply (la_map _ _ _ L); auto.
  - intros y p x E _. destruct (la_rev _ _ _ L y p x E eq_refl) as (q & I & NB & X). exists q. auto.
  - intros x NZ _. destruct (la_zero _ _ _ L x NZ eq_refl) as (q & I & NB & X). exists q. auto.
  - reflexivity.
Qed.
Lemma wf_filter f (l : list ent) : WF l -> WF (filter f l).
Proof.
  induction l as [|a l IH]; intros W; [exact W|]. apply wf_cons in W as (P & W & F). cbn. destruct (f a); [|auto]. apply wf_cons. split; [exact P|]. split; [auto|].
  rewrite Forall_forall in *. intros q I. apply filter_In in I as [I _]. auto.
Qed.
Lemma filter_one f l (q : ent) : WF l -> In q l -> f q = true -> (forall p, In p l -> f p = true -> p = q) -> filter f l = [q].
Proof.
  intros W I Q U. apply wf_ext; [now apply wf_filter| |].
  - apply wf_cons. split; [exact (wf_pos _ _ W I)|]. split; [apply wf_nil|constructor].
  - intros p. rewrite filter_In. cbn. split; [intros [J E]; left; symmetry; auto|]. intros [<-|[]]. auto.
Qed.
Lemma areas_put a l l3 s t r : areas_ok a l -> (forall p, In p l3 <-> p = ((s, t), r) \/ exists q, In q l /\ In (fst p) (rem s t q) /\ snd p = snd q) ->
  areas_ok (((s, t), kind r) :: cut s t a) l3.
Proof.
  intros A M i d. cbn [In]. rewrite in_cut. split.
  - intros [E|(b & e & I & J)].
    + injection E as <- <-. exists r. split; [apply M; auto|reflexivity].
    + apply A in I as (r' & I & K). exists r'. split; [|exact K]. apply M. right. exists ((b, e), r'). auto.
  - intros (r' & I & K). apply M in I as [E|(q & I & J & E)].
    + injection E as -> ->. left. now rewrite K.
    + right. destruct q as [[b e] r2]. cbn [fst snd] in *. subst r2. exists b, e. split; [|exact J]. apply A. eauto.
Qed.
Lemma al_lt a b : aligned a -> aligned b -> a < b -> a <= b - PAGE.
Proof.
  Transparent PAGE. unfold aligned, PAGE. intros A B L. pose proof (Z.div_mod a 4096 ltac:(lia)). pose proof (Z.div_mod b 4096 ltac:(lia)). lia.
Qed.
Lemma al_page : aligned PAGE.
Proof. reflexivity. Qed.
Lemma al_max : aligned (8 * 1024 * 1024).
Proof. reflexivity. Qed.
Lemma page_lt : 0 < PAGE < 8 * 1024 * 1024.
Proof. unfold PAGE. lia. Qed.
#[global] Opaque PAGE.
Lemma max_stack : MAX_STACK = 8 * 1024 * 1024.
Proof. reflexivity. Qed.
#[global] Opaque MAX_STACK.

Section Start.
Variables (k : kern) (maps : list pmap) (brk0 bh bs hs he cs ce : Z).
Hypothesis S : start k maps brk0 bh bs hs he cs ce.
Notation l1 := (map ent_of (join maps)).
Notation ss := (stack_start ce).
Notation se := (stack_end ce).
Notation hr := (mkReg 0 RW false (Some PHeap)).
Notation sr := (mkReg 0 RW false (Some PStack)).

Lemma wf1 : WF l1.
Proof. apply (ordered_wf _ 0), join_ordered, (sr_maps _ _ _ _ _ _ _ _ _ S). Qed.
Lemma in1 p : In p l1 -> base p = 0 /\ aligned (st p) /\ aligned (en p) /\ 0 <= st p /\ en p <= TASK_SIZE.
Proof.
  intros I. apply in_map_iff in I as (q & <- & I). rewrite st_of, en_of, base_of.
  destruct (ordered_in _ 0 q (join_ordered _ 0 (sr_maps _ _ _ _ _ _ _ _ _ S)) I) as (A & B & C & D & E). auto.
Qed.
Lemma pl1 : pl k l1.
Proof.
  assert (IN : forall x, (exists q, In q l1 /\ st q <= x < en q) <-> k_plug k x <> None).
  { intros x. rewrite (sr_in _ _ _ _ _ _ _ _ _ S x). split.
    - intros (q & I & X). apply in_map_iff in I as (q' & <- & I). rewrite st_of, en_of in X. apply join_cover. destruct q' as [[s e] a]. exists s, e, a. auto.
    - intros H. destruct (cover_join _ 0 x (sr_maps _ _ _ _ _ _ _ _ _ S) H) as (s & e & a & I & X). exists (ent_of ((s, e), a)).
      split; [now apply in_map|]. rewrite st_of, en_of. exact X. }
  split.
  - intros q x I NB. destruct (in1 q I) as [B _]. contradiction.
  - intros q x I _ X. assert (H : k_plug k x <> None) by (apply IN; eauto). destruct (k_plug k x) as [[p c]|] eqn:E; [|congruence].
    exists p, c. split; [reflexivity|]. destruct c as [y| |]; cbn; auto. exact (sr_new _ _ _ _ _ _ _ _ _ S x p y E).
  - intros x X. apply IN. exact X.
Qed.
Lemma areas1 : areas_ok (map area_of (join maps)) l1.
Proof.
  intros i d. split.
  - intros I. apply in_map_iff in I as ([j [[p sh] pa]] & E & I). unfold area_of in E. cbn in E. injection E as <- <-. exists (mkReg 0 p sh pa).
    split; [|reflexivity]. apply (in_map ent_of) in I. exact I.
  - intros (r & I & K). apply in_map_iff in I as ([j [[p sh] pa]] & E & I). cbn in E. injection E as -> <-. apply in_map_iff. exists (i, (p, sh, pa)). split; [|exact I].
    unfold area_of. cbn. f_equal. exact K.
Qed.
Lemma heap_lines : filter (is_path PHeap) l1 = map ent_of (lines KHeap (join maps)).
Proof. apply lines_of; [reflexivity|discriminate]. Qed.
Lemma stack_lines : filter (is_path PStack) l1 = [((cs, ce), sr)].
Proof. rewrite (lines_of PStack KStack) by (reflexivity || discriminate). rewrite (sr_stack _ _ _ _ _ _ _ _ _ S). reflexivity. Qed.
Lemma stack_in : In ((cs, ce), sr) l1.
Proof. assert (I : In ((cs, ce), sr) (filter (is_path PStack) l1)) by (rewrite stack_lines; cbn; auto). apply filter_In in I as [I _]. exact I. Qed.
Lemma stack_only p : In p l1 -> r_path (snd p) = Some PStack -> p = ((cs, ce), sr).
Proof.
  intros I E. assert (J : In p (filter (is_path PStack) l1)) by (apply filter_In; split; [exact I|]; unfold is_path; rewrite E; reflexivity).
  rewrite stack_lines in J. destruct J as [J|[]]. now symmetry.
Qed.
Lemma plain1 l0 : WF l0 -> (forall p, In p l0 -> base p = 0 /\ aligned (st p) /\ aligned (en p) /\ 0 <= st p /\ en p <= TASK_SIZE) ->
  (forall q, In q l0 -> r_path (snd q) <> Some PHeap) -> lay none k l0.
Proof.
  intros W I H. pose proof task_max as TM. apply lay_plain; auto.
  - intros q J. destruct (I q J) as (_ & A & B & C & D). repeat (split; [assumption|]). lia.
  - intros q J. apply I. exact J.
  - exact (sr_shad _ _ _ _ _ _ _ _ _ S).
  - exact (sr_file _ _ _ _ _ _ _ _ _ S).
Qed.

(** after get_heap *)
Definition after_heap (k2 : kern) (l2 : list ent) : Prop :=
  lay none k2 l2 /\ pl k2 l2 /\ areas_ok (map area_of (join maps)) l2 /\ k_obj k2 = k_obj k /\
  (forall x, view k2 x = view k x) /\ (forall x, ~ (hs <= x < he) -> k_plug k2 x = k_plug k x) /\
  (forall y, ~ (bh <= y < bh + (he - hs)) -> k_shad k2 y = None) /\
  (forall q, In q l2 -> base q <> 0 -> fst q = (hs, he)) /\
  (forall q, r_path (snd q) = Some PStack -> (In q l2 <-> In q l1)) /\
  aligned hs /\ aligned he /\ 0 < hs <= he /\ (hs < he -> In (hs, he, hr) l1).

Lemma heap_ok : exists k2 l2, get_heap brk0 bh k (of_list l1) = Some (k2, of_list l2, (hs, he)) /\ after_heap k2 l2.
Proof.
  unfold get_heap, im_iter. rewrite items_of_list. cbn [skipn]. rewrite heap_lines. pose proof wf1 as W1.
  destruct (sr_heap _ _ _ _ _ _ _ _ _ S) as [E|(E & EH1 & EH2 & A & P)]; rewrite E; cbn [map ent_of].
  - assert (IQ : In ((hs, he), hr) l1).
    { assert (I : In ((hs, he), hr) (filter (is_path PHeap) l1)) by (rewrite heap_lines, E; cbn; auto). apply filter_In in I as [I _]. exact I. }
    assert (UQ : forall p, In p l1 -> r_path (snd p) = Some PHeap -> p = ((hs, he), hr)).
    { intros p I PH. assert (J : In p (filter (is_path PHeap) l1)) by (apply filter_In; split; [exact I|]; unfold is_path; rewrite PH; reflexivity).
      rewrite heap_lines, E in J. destruct J as [J|[]]. now symmetry. }
    pose proof (wf_pos _ _ W1 IQ) as LT. unfold st, en in LT. cbn in LT. destruct (in1 _ IQ) as (_ & A1 & A2 & A3 & A4). unfold st, en in A1, A2, A3, A4. cbn in A1, A2, A3, A4.
    destruct (step_ok l1 (IClear hs he) W1 LT) as (l0 & E0 & W0 & M0). cbn [op_range op_value fst snd im_step] in *.
    destruct (step_ok l1 (IInsert hs he (with_base bh hr)) W1 LT) as (l2 & E2 & W2 & M2). cbn [op_range op_value fst snd im_step] in *.
    destruct (take_out l1 ((hs, he), hr) W1 IQ) as (l0' & E0' & W0' & M0'). change (st (hs, he, hr)) with hs in E0'. change (en (hs, he, hr)) with he in E0'. rewrite E0 in E0'. injection E0' as EL1 EL2 EL3 EM.
    assert (EL : l0 = l0').
    { clear - EL1 EL2 EL3. revert l0' EL1 EL2 EL3. induction l0 as [|[[a b] v] l0 IH]; intros [|[[a' b'] v'] l0'] H1 H2 H3; cbn in *; try discriminate; [reflexivity|].
      injection H1 as H1 H1'. injection H2 as H2 H2'. injection H3 as H3 H3'. unfold st, en in *. cbn in *. subst. f_equal. auto. }
    subst l0'.
    assert (N0 : forall p, In p l0 <-> exists q, In q l1 /\ In (fst p) (rem hs he q) /\ snd p = snd q).
    { intros p. rewrite (M0 p). split; [intros [(v & X & _)|H]; [discriminate|exact H]|auto]. }
    assert (N2 : forall p, In p l2 <-> p = ((hs, he), with_base bh hr) \/ In p l0).
    { intros p. rewrite (M2 p), (N0 p). split; [intros [(v & [= <-] & ->)|H]; auto|intros [->|H]; [left; eauto|auto]]. }
    assert (L0 : lay none k l0).
    { apply plain1; [exact W0| |].
      - intros p I. apply M0' in I as [I _]. apply in1. exact I.
      - intros p I PH. apply M0' in I as [I N]. apply N. now rewrite (UQ p I PH). }
    destruct (alloc_same he k) as (K1 & K2 & K3 & K4 & K5 & K6). set (ka := shm_alloc he k) in *.
    set (kA := mmap_into_shadow bh hs he HEAP_PROT ka).
    destruct (sr_bh _ _ _ _ _ _ _ _ _ S) as [AB B0].
    assert (SA : k_shad kA = over bh (bh + (he - hs)) (fun y => Some (RW, hs + (y - bh))) (k_shad k)).
    { unfold kA, mmap_into_shadow, s_mmap. rewrite (rup_whole (he - hs)) by (apply al_sub; auto). cbn. now rewrite K1. }
    destruct (put_ok hs he hs bh (with_base bh hr) k kA l1 l0 l2) as (kB & EC & R1 & R2 & R3 & R4 & R5 & R6 & R7); auto; try lia; try exact Logic.I.
    { exact pl1. }
    { intros y _. apply (sr_shad _ _ _ _ _ _ _ _ _ S). }
    { exact (sr_hmem _ _ _ _ _ _ _ _ _ S). }
    { intros x X. lia. }
    rewrite (proj2 (Z.ltb_lt hs he)) in EC by exact LT. change (r_base (with_base bh hr)) with bh in *. rewrite EC. ob.
    rewrite E2. ob. rewrite EM. rewrite assert_true by reflexivity.
    eexists _, l2. split; [reflexivity|]. change HEAP_PROT with RW. unfold after_heap. split; [exact R1|]. split; [exact R2|]. split.
    { intros i d. rewrite (areas1 i d). split; intros (r & I & K).
      - destruct (list_eq_dec Z.eq_dec [fst i; snd i] [hs; he]) as [EI|NI].
        + assert (i = (hs, he)) by (destruct i; cbn in EI; congruence). subst i. assert (Q : (hs, he, r) = (hs, he, hr)) by (apply (same_ent l1 _ _ W1 I IQ); reflexivity).
          injection Q as ->. exists (with_base bh hr). split; [apply N2; auto|exact K].
        + exists r. split; [|exact K]. apply N2. right. apply M0'. split; [exact I|]. cbn. intros ->. apply NI. reflexivity.
      - apply N2 in I as [E1|I]; [injection E1 as -> ->; exists hr; split; [exact IQ|exact K]|]. apply M0' in I as [I _]. eauto. }
    split; [exact R3|]. split.
    { intros x. rewrite R7. rewrite (proj2 (inr_no hs hs x)) by lia. reflexivity. }
    split; [exact R6|]. split.
    { intros y Y. rewrite R5, SA, over_out by exact Y. apply (sr_shad _ _ _ _ _ _ _ _ _ S). }
    split.
    { intros q I NB. apply N2 in I as [->|I]; [reflexivity|]. apply M0' in I as [I _]. destruct (in1 q I) as [B _]. contradiction. }
    split.
    { intros q PS. rewrite (N2 q), (M0' q). split.
      - intros [->|[I _]]; [discriminate|exact I].
      - intros I. right. split; [exact I|]. intros EQ. rewrite (same_ent l1 q _ W1 I IQ EQ) in PS. discriminate. }
    pose proof (sr_hpos _ _ _ _ _ _ _ _ _ S). split; [exact A1|]. split; [exact A2|]. split; [lia|]. auto.
  - exists k, l1. split; [rewrite EH1, EH2; reflexivity|]. unfold after_heap.
    split; [|split; [exact pl1|split; [exact areas1|split; [reflexivity|split; [reflexivity|split; [reflexivity|]]]]]].
    + apply plain1; [exact W1|apply in1|]. intros q I PH. assert (J : In q (filter (is_path PHeap) l1)) by (apply filter_In; split; [exact I|]; unfold is_path; rewrite PH; reflexivity).
      rewrite heap_lines, E in J. destruct J.
    + split; [intros y _; apply (sr_shad _ _ _ _ _ _ _ _ _ S)|]. split.
      { intros q I NB. destruct (in1 q I) as [B _]. contradiction. }
      split; [tauto|]. split; [rewrite EH1; exact A|]. split; [rewrite EH2; exact A|]. split; lia.
Qed.

Lemma init_ok top : top <= se -> exists s l, mapper_new maps brk0 bh bs k = Some s /\ rel top s (native_start k maps hs he cs ce) l.
Proof.
  intros TP. destruct (regions_start maps (sr_maps _ _ _ _ _ _ _ _ _ S)) as (m & EG & EC). unfold mapper_new. rewrite EG. ob. rewrite EC. ob.
  destruct heap_ok as (k2 & l2 & EH & (L2 & P2 & AR & OB & VW & PO & SF & BA & PS & A1 & A2 & A3 & HI)). rewrite EH. ob.
  pose proof wf1 as W1. pose proof (la_wf _ _ _ L2) as W2. pose proof stack_in as SI. pose proof page_lt as PG.
  assert (SI2 : In ((cs, ce), sr) l2) by (apply PS; auto).
  unfold map_stack, im_iter. rewrite items_of_list. cbn [skipn].
  rewrite (filter_one (is_path PStack) l2 ((cs, ce), sr)); auto.
  2:{ intros p I E. unfold is_path in E. apply path_eq in E. apply stack_only; [|exact E]. apply PS; auto. }
  destruct (in1 _ SI) as (_ & C1 & C2 & C3 & C4). unfold st, en in C1, C2, C3, C4. cbn in C1, C2, C3, C4.
  pose proof (wf_pos _ _ W1 SI) as CL. unfold st, en in CL. cbn in CL. destruct (sr_slow _ _ _ _ _ _ _ _ _ S) as [SL1 SL2].
  rewrite max_stack. change (ce - PAGE) with se. change (ce - 8 * 1024 * 1024) with ss.
  assert (LT : ss < se) by (unfold stack_start, stack_end; lia).
  assert (CE : cs <= se) by (apply al_lt; auto).
  assert (SE : se < ce) by (unfold stack_end; lia).
  assert (AS : aligned ss) by (apply al_sub; [exact C2|exact al_max]).
  assert (AE : aligned se) by (apply al_sub; [exact C2|exact al_page]).
  destruct (sr_bs _ _ _ _ _ _ _ _ _ S) as [AB B0].
  (* the heap is somewhere else *)
  assert (HD : hs < he -> he <= ss \/ ce <= hs).
  { intros H. specialize (HI H). destruct (others_out l1 (cs, ce, sr) (hs, he, hr) W1 SI HI ltac:(discriminate)) as [O|O]; unfold st, en in O; cbn in O; [|auto].
    left. destruct (Z_le_gt_dec he ss); [auto|]. exfalso.
    destruct (sr_hmem _ _ _ _ _ _ _ _ _ S (Z.max hs ss) ltac:(lia)) as (v & E). rewrite (sr_sgap _ _ _ _ _ _ _ _ _ S) in E; [discriminate|lia]. }
  set (r := with_base bs sr).
  destruct (step_ok l2 (IClear ss se) W2 LT) as (l0 & E0 & W0 & M0). cbn [op_range op_value fst snd im_step] in *.
  destruct (step_ok l2 (IInsert ss se r) W2 LT) as (l3 & E3 & W3 & M3). cbn [op_range op_value fst snd im_step] in *.
  assert (N0 : forall p, In p l0 <-> exists q, In q l2 /\ In (fst p) (rem ss se q) /\ snd p = snd q).
  { intros p. rewrite (M0 p). split; [intros [(v & X & _)|H]; [discriminate|exact H]|auto]. }
  assert (N3 : forall p, In p l3 <-> p = ((ss, se), r) \/ In p l0).
  { intros p. rewrite (M3 p), (N0 p). split; [intros [(v & [= <-] & ->)|H]; auto|intros [->|H]; [left; eauto|auto]]. }
  assert (L0 : lay none k2 l0).
  { apply (lay_rest ss se k2 l2 l0); auto. intros q I NB. pose proof (BA q I NB) as E. pose proof (wf_pos _ _ W2 I) as P. unfold st, en in *. rewrite E in *. cbn in *.
    destruct (HD P); lia. }
  set (ka := mmap_into_shadow bs ss se STACK_PROT k2). destruct (alloc_same se ka) as (K1 & K2 & K3 & K4 & K5 & K6). set (kA := shm_alloc se ka) in *.
  assert (SA : k_shad kA = over bs (bs + (se - ss)) (fun y => Some (RW, ss + (y - bs))) (k_shad k2)).
  { rewrite K1. unfold ka, mmap_into_shadow, s_mmap. rewrite (rup_whole (se - ss)) by (apply al_sub; auto). reflexivity. }
  assert (OUT : forall x, ss <= x < ce -> ~ (hs <= x < he)).
  { intros x X H. destruct (HD ltac:(lia)); lia. }
  destruct (put_ok ss se cs bs r k2 kA l2 l0 l3) as (kB & EK & R1 & R2 & R3 & R4 & R5 & R6 & R7); auto; try lia; try exact Logic.I.
  { intros y Y. apply SF. destruct (sr_bdisj _ _ _ _ _ _ _ _ _ S); lia. }
  { intros x X. rewrite PO by (apply OUT; lia). apply (sr_smem _ _ _ _ _ _ _ _ _ S). lia. }
  { intros x X. rewrite PO by (apply OUT; lia). apply (sr_sgap _ _ _ _ _ _ _ _ _ S). exact X. }
  fold r. fold ka. fold kA. change (r_base r) with bs in *. rewrite EK. ob. rewrite E3. ob. change STACK_PROT with RW.
  eexists _, l3. split; [reflexivity|]. split; cbn [s_m s_k mm_regs mm_heap native_start n_heap n_k n_areas fst snd].
  - reflexivity.
  - exact R1.
  - exact R2.
  - reflexivity.
  - split; [exact A1|]. split; [exact A2|exact A3].
  - rewrite R4. lia.
  - intros x. cbn. rewrite R7. destruct (inr_dec ss cs x) as [H|H].
    + rewrite over_in by exact H. now rewrite (proj2 (inr_iff ss cs x) H).
    + rewrite over_out by exact H. rewrite (proj2 (inr_no ss cs x) H), VW. unfold view. destruct (k_plug k x) as [[p c]|] eqn:E; [|reflexivity]. cbn.
      destruct c as [y| |]; [|reflexivity|reflexivity]. destruct (sr_new _ _ _ _ _ _ _ _ _ S x p y E).
  - cbn [set_plug k_obj]. rewrite R3. now symmetry.
  - apply (areas_put _ l2 l3 ss se r AR). intros p. now rewrite (N3 p), (N0 p).
Qed.
End Start.
