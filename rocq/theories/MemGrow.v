(** Each call keeps the relation: mremap and brk. *)
From Verif Require Import Base IntervalModel IntervalSpec IntervalProofs MemKernel MemModel MemSpec MemLayout MemUnmap MemProtect MemRel MemSteps.

Lemma report_out s t (q : ent) : en q <= s \/ t <= st q -> report s t q = [].
Proof.
  destruct q as [[b e] v]. unfold st, en. cbn. intros H. destruct (Z.leb_spec e s); [reflexivity|]. destruct (Z.leb_spec t b); [reflexivity|lia].
Qed.
Lemma reports_out s t (l : list ent) : (forall q, In q l -> en q <= s \/ t <= st q) -> flat_map (report s t) l = [].
Proof.
  induction l as [|q l IH]; intros H; [reflexivity|]. cbn [flat_map]. rewrite report_out by (apply H; cbn; auto). apply IH. intros; apply H; cbn; auto.
Qed.
Lemma rem_out s t q : s < t -> st q < en q -> en q <= s \/ t <= st q -> rem s t q = [fst q].
Proof. intros ST P H. pose proof (touches_ok s t ST q P) as T. destruct T; auto; lia. Qed.
Lemma rem_all s t q : s < t -> st q < en q -> s <= st q -> en q <= t -> rem s t q = [].
Proof. intros ST P A B. pose proof (touches_ok s t ST q P) as T. destruct T; auto; lia. Qed.

Lemma others_out l (q p : ent) : WF l -> In q l -> In p l -> p <> q -> en p <= st q \/ en q <= st p.
Proof.
  intros W IQ IP N. pose proof (wf_pos _ _ W IQ). pose proof (wf_pos _ _ W IP). destruct (Z_le_gt_dec (en p) (st q)); [auto|]. destruct (Z_le_gt_dec (en q) (st p)); [auto|].
  exfalso. apply N. apply (wf_unique l p q (Z.max (st p) (st q)) W IP IQ); lia.
Qed.
Lemma same_ent l (p q : ent) : WF l -> In p l -> In q l -> fst p = fst q -> p = q.
Proof.
  intros W IP IQ E. pose proof (wf_pos _ _ W IP) as H. apply (wf_unique l p q (st p) W IP IQ); unfold st, en in *; [lia|]. rewrite <- E. lia.
Qed.
(** taking out one region *)
Lemma take_out l (q : ent) : WF l -> In q l -> exists l0, im_clear (of_list l) (st q) (en q) = Some (of_list l0, [Removed (st q, en q) (snd q)]) /\
  WF l0 /\ (forall p, In p l0 <-> In p l /\ fst p <> fst q).
Proof.
  intros W I. pose proof (wf_pos _ _ W I) as P.
  destruct (step_ok l (IClear (st q) (en q)) W P) as (l0 & E & W0 & M). cbn [op_range op_value fst snd im_step] in *.
  exists l0. rewrite E. split; [|split; [exact W0|]].
  - f_equal. f_equal. destruct (in_split _ _ I) as (A & B & EL). rewrite EL, flat_map_app. cbn [flat_map].
    rewrite !reports_out.
    + cbn. rewrite app_nil_r. pose proof (touches_ok (st q) (en q) P q P) as T. destruct T; try lia. reflexivity.
    + rewrite EL in W. apply wf_app in W as (_ & W & _). apply wf_cons in W as (_ & _ & F). rewrite Forall_forall in F. intros p J. right. exact (F p J).
    + rewrite EL in W. apply wf_app in W as (_ & _ & F). intros p J. left. apply F; cbn; auto.
  - intros p. rewrite (M p). split.
    + intros [(v & X & _)|(r & J & A & B)]; [discriminate|].
      destruct (Z.eq_dec (st r) (st q)) as [E1|E1]; [destruct (Z.eq_dec (en r) (en q)) as [E2|E2]|].
      * assert (r = q) by (apply (wf_unique l r q (st q) W J I); lia). subst r. change (In (fst p) (rem (st q) (en q) q)) in A. rewrite rem_all in A by lia. destruct A.
      * assert (r = q) by (pose proof (wf_pos _ _ W J); apply (wf_unique l r q (st q) W J I); lia). subst r. lia.
      * assert (O : en r <= st q \/ en q <= st r) by (apply (others_out l q r W I J); congruence).
        change (In (fst p) (rem (st q) (en q) r)) in A. rewrite rem_out in A by (try lia; exact (wf_pos _ _ W J)). destruct A as [A|[]].
        assert (p = r) by (destruct p, r; cbn in *; congruence). subst p. split; [exact J|]. intros C. apply E1. unfold st. now rewrite C.
    + intros [J N]. right. exists p. split; [exact J|]. split; [|reflexivity].
      assert (O : en p <= st q \/ en q <= st p) by (apply (others_out l q p W I J); congruence).
      change (In (fst p) (rem (st q) (en q) p)). rewrite rem_out by (try lia; exact (wf_pos _ _ W J)). cbn. auto.
Qed.

(** memcpy in Shadow, between different bytes of the file *)
Lemma copy_ok m : forall k y1 y2 o1 o2 p1 p2,
  (forall i, 0 <= i < Z.of_nat m -> k_shad k (y1 + i) = Some (p1, o1 + i) /\ k_shad k (y2 + i) = Some (p2, o2 + i) /\ o1 + i < rup (k_flen k) /\ o2 + i < rup (k_flen k)) ->
  p_read p1 = true -> p_write p2 = true -> (o1 + Z.of_nat m <= o2 \/ o2 + Z.of_nat m <= o1) ->
  exists k', s_copy k y1 y2 m = Some k' /\ k_shad k' = k_shad k /\ k_plug k' = k_plug k /\ k_obj k' = k_obj k /\ k_flen k' = k_flen k /\
    forall x, k_file k' x = if inr o2 (o2 + Z.of_nat m) x then k_file k (o1 + (x - o2)) else k_file k x.
Proof.
  induction m as [|m IH]; intros k y1 y2 o1 o2 p1 p2 H PR PW DJ.
  - exists k. cbn. repeat (split; auto). intros x. rewrite (proj2 (inr_no o2 _ x)) by lia. reflexivity.
  - cbn [s_copy]. destruct (H 0 ltac:(lia)) as (E1 & E2 & E3 & E4). rewrite !Z.add_0_r in E1, E2, E3, E4. rewrite (Z.add_0_r o1) in E1. rewrite (Z.add_0_r o2) in E2.
    apply Z.ltb_lt in E3, E4. unfold s_load. rewrite E1. cbv iota beta. rewrite PR, E3. cbn [andb]. ob. unfold s_store. rewrite E2. cbv iota beta. rewrite PW, E4. cbn [andb]. ob.
    set (k1 := set_file _ k).
    destruct (IH k1 (y1 + 1) (y2 + 1) (o1 + 1) (o2 + 1) p1 p2) as (k' & E & A & B & C & D & F); auto; [|lia|].
    { intros i Hi. unfold k1. cbn. replace (y1 + 1 + i) with (y1 + (1 + i)) by lia. replace (y2 + 1 + i) with (y2 + (1 + i)) by lia.
      replace (o1 + 1 + i) with (o1 + (1 + i)) by lia. replace (o2 + 1 + i) with (o2 + (1 + i)) by lia. apply H. lia. }
    exists k'. rewrite E. split; [reflexivity|]. rewrite A, B, C, D. repeat (split; [reflexivity|]). intros x. rewrite F. unfold k1. cbn [set_file k_file].
    destruct (inr_dec (o2 + 1) (o2 + 1 + Z.of_nat m) x) as [X|X]; [|destruct (Z.eq_dec x o2) as [->|N]].
    + rewrite (proj2 (inr_iff _ _ _) X), (proj2 (inr_iff o2 (o2 + Z.of_nat (S m)) x) ltac:(lia)). rewrite over_out by lia. f_equal. lia.
    + rewrite (proj2 (inr_no _ _ _) X), (proj2 (inr_iff o2 (o2 + Z.of_nat (S m)) o2) ltac:(lia)). rewrite over_in by lia. f_equal. lia.
    + rewrite (proj2 (inr_no _ _ _) X), (proj2 (inr_no o2 (o2 + Z.of_nat (S m)) x) ltac:(lia)). rewrite over_out by lia. reflexivity.
Qed.

(** what a call does to the mapping of a region *)
Lemma alloc_same e k : k_shad (shm_alloc e k) = k_shad k /\ k_file (shm_alloc e k) = k_file k /\ k_plug (shm_alloc e k) = k_plug k /\
  k_obj (shm_alloc e k) = k_obj k /\ k_flen k <= k_flen (shm_alloc e k) /\ e <= k_flen (shm_alloc e k).
Proof. unfold shm_alloc. destruct (Z.ltb_spec (k_flen k) e); cbn; repeat (split; [reflexivity|]); lia. Qed.

Section Remap.
Variables old osz nsz new b : Z.
Hypothesis AO : aligned old.
Hypothesis AOS : aligned osz.
Hypothesis ANS : aligned nsz.
Hypothesis O0 : 0 < osz.
Hypothesis N0 : 0 < nsz.
Hypothesis AB : aligned b.
Hypothesis B0 : 0 < b.
Hypothesis DJ : new <> old -> new + nsz <= old \/ old + osz <= new.
Notation G := (inr old (old + osz)).
Variable k : kern.
Variable r : region.
Hypothesis RB : aligned (r_base r).
Hypothesis RB0 : 0 < r_base r.
Hypothesis RP : r_path r = None.
Hypothesis MAP : forall x, old <= x < old + osz -> k_shad k (r_base r + (x - old)) = Some (r_prot r, x).
Hypothesis REV : forall y p x, k_shad k y = Some (p, x) -> old <= x < old + osz -> y = r_base r + (x - old).
Hypothesis FREE : forall y, b <= y < b + nsz -> forall p x, k_shad k y = Some (p, x) -> G x = true /\ (new <> old -> False).
Hypothesis RWP : new <> old -> r_prot r = RW.
Hypothesis FL : old + osz <= k_flen k.
Hypothesis ZERO : forall x, new <= x < new + nsz -> ~ (old <= x < old + osz) -> k_file k x = 0.
(* the process's mapping, after mremap *)
Hypothesis PLUG1 : new = old -> forall x, new <= x < new + nsz -> k_plug k x = Some (r_prot r, CShm x).

Lemma inbase y : r_base r <= y < r_base r + osz -> k_shad k y = Some (r_prot r, old + (y - r_base r)).
Proof using MAP. clear - MAP. intros Y. pose proof (MAP (old + (y - r_base r)) ltac:(lia)) as M. replace (r_base r + (old + (y - r_base r) - old)) with y in M by lia. exact M. Qed.

Lemma move_ok : exists k' r', move_region old osz nsz new b r k = Some (k', r') /\
  aligned (r_base r') /\ 0 < r_base r' /\ r_prot r' = r_prot r /\ r_path r' = None /\
  k_flen k <= k_flen k' /\ new + nsz <= k_flen k' /\ k_obj k' = k_obj k /\
  (forall y, r_base r' <= y < r_base r' + nsz -> k_shad k' y = Some (r_prot r', new + (y - r_base r'))) /\
  (forall y, ~ (r_base r' <= y < r_base r' + nsz) -> forall p x, k_shad k' y = Some (p, x) <-> k_shad k y = Some (p, x) /\ G x = false) /\
  (forall y, r_base r' <= y < r_base r' + nsz -> forall p x, k_shad k y = Some (p, x) -> G x = true) /\
  (forall x, k_file k' x = if inr new (new + nsz) x then if x - new <? osz then k_file k (old + (x - new)) else 0
                           else if G x then 0 else k_file k x) /\
  (forall x, k_plug k' x = if inr new (new + nsz) x then Some (r_prot r', CShm x) else k_plug k x).
Proof.
  unfold move_region. destruct (Z.eqb_spec (r_base r) 0); [lia|]. rewrite RP. rewrite assert_true by reflexivity.
  assert (GB : forall y p x, k_shad k y = Some (p, x) -> (G x = true <-> r_base r <= y < r_base r + osz)).
  { intros y p x E. rewrite inr_iff. split.
    - intros X. rewrite (REV y p x E X). lia.
    - intros Y. rewrite (inbase y Y) in E. injection E as _ <-. lia. }
  (* outside of the old mapping nothing changes *)
  assert (REST : forall y p x, (if inr (r_base r) (r_base r + osz) y then None else k_shad k y) = Some (p, x) <-> k_shad k y = Some (p, x) /\ G x = false).
  { intros y p x. destruct (inr (r_base r) (r_base r + osz) y) eqn:H.
    - split; [discriminate|]. intros [E NG]. apply inr_iff in H. apply (GB _ _ _ E) in H. congruence.
    - split; [|tauto]. intros E. split; [exact E|]. apply not_true_iff_false. intros HG. apply (GB _ _ _ E) in HG. apply inr_no in H. contradiction. }
  destruct (Z.eqb_spec new old) as [->|NE]; cbn [negb].
  - (* in place *)
    assert (PL : forall x, old <= x < old + nsz -> k_plug k x = Some (r_prot r, CShm x)) by auto.
    destruct (Z.ltb_spec nsz osz) as [LT|GE].
    + unfold shm_dealloc. rewrite assert_true by lia. ob. exists (s_mremap (r_base r) osz nsz (r_base r) (f_punch (old + nsz) (old + osz) k)), r.
      split; [reflexivity|]. unfold s_mremap, f_punch. cbn [set_file k_shad]. pose proof (inbase (r_base r) ltac:(lia)) as EB. rewrite EB. rewrite !rup_whole by assumption. cbn [set_file set_shad k_shad k_plug k_file k_flen k_obj].
      repeat (split; [solve [auto|lia]|]). split; [|split; [|split; [|split]]].
      * intros y Y. rewrite over_in by exact Y. destruct (Z.ltb_spec (y - r_base r) osz); [|lia]. replace (y - r_base r + r_base r) with y by lia. apply inbase. lia.
      * intros y Y p x. rewrite over_out by exact Y. rewrite <- REST. destruct (inr_dec (r_base r) (r_base r + osz) y) as [H|H].
        -- rewrite over_in by exact H. apply inr_iff in H. rewrite H. tauto.
        -- rewrite over_out by exact H. apply inr_no in H. rewrite H. tauto.
      * intros y Y p x E. apply (GB _ _ _ E). lia.
      * intros x. destruct (inr_dec old (old + nsz) x) as [H|H].
        -- rewrite (proj2 (inr_iff _ _ _) H). rewrite over_out by lia. destruct (Z.ltb_spec (x - old) osz); [|lia]. f_equal. lia.
        -- rewrite (proj2 (inr_no _ _ _) H). destruct (inr_dec old (old + osz) x) as [H2|H2].
           ++ rewrite (proj2 (inr_iff _ _ _) H2). apply over_in. lia.
           ++ rewrite (proj2 (inr_no _ _ _) H2). apply over_out. lia.
      * intros x. destruct (inr old (old + nsz) x) eqn:H; [|reflexivity]. apply inr_iff in H. auto.
    + destruct (Z.ltb_spec osz nsz) as [LT|EQ].
      * destruct (alloc_same (old + nsz) k) as (A1 & A2 & A3 & A4 & A5 & A6).
        exists (s_mremap (r_base r) osz nsz b (shm_alloc (old + nsz) k)), (with_base b r). split; [reflexivity|].
        unfold s_mremap. rewrite A1. pose proof (inbase (r_base r) ltac:(lia)) as EB. rewrite EB. rewrite !rup_whole by assumption. cbn [set_shad k_shad k_plug k_file k_flen k_obj with_base r_base r_prot r_path].
        repeat (split; [solve [auto|lia]|]). split; [|split; [|split; [|split]]].
        -- intros y Y. rewrite over_in by exact Y. destruct (Z.ltb_spec (y - b) osz) as [H|H].
           ++ rewrite (inbase (y - b + r_base r)) by lia. do 2 f_equal. lia.
           ++ do 2 f_equal. lia.
        -- intros y Y p x. rewrite over_out by exact Y. rewrite <- REST. destruct (inr_dec (r_base r) (r_base r + osz) y) as [H|H].
           ++ rewrite over_in by exact H. apply inr_iff in H. rewrite H. tauto.
           ++ rewrite over_out by exact H. apply inr_no in H. rewrite H. tauto.
        -- intros y Y p x E. exact (proj1 (FREE y Y p x E)).
        -- intros x. rewrite A2. destruct (inr_dec old (old + nsz) x) as [H|H].
           ++ rewrite (proj2 (inr_iff _ _ _) H). destruct (Z.ltb_spec (x - old) osz); [f_equal; lia|]. apply ZERO; lia.
           ++ rewrite (proj2 (inr_no _ _ _) H). rewrite (proj2 (inr_no old (old + osz) x)) by lia. reflexivity.
        -- intros x. rewrite A3. destruct (inr old (old + nsz) x) eqn:H; [|reflexivity]. apply inr_iff in H. auto.
      * assert (nsz = osz) by lia. subst nsz. exists k, r. split; [reflexivity|]. repeat (split; [solve [auto|lia]|]). split; [|split; [|split; [|split]]].
        -- apply inbase.
        -- intros y Y p x. rewrite <- REST. apply inr_no in Y. rewrite Y. tauto.
        -- intros y Y p x E. now apply (GB _ _ _ E).
        -- intros x. destruct (inr_dec old (old + osz) x) as [H|H].
           ++ rewrite (proj2 (inr_iff _ _ _) H). destruct (Z.ltb_spec (x - old) osz); [f_equal; lia|lia].
           ++ rewrite (proj2 (inr_no _ _ _) H). reflexivity.
        -- intros x. destruct (inr old (old + osz) x) eqn:H; [|reflexivity]. apply inr_iff in H. auto.
  - (* elsewhere *)
    specialize (DJ NE). specialize (RWP NE).
    replace (inr new (new + nsz) old) with false by (symmetry; apply inr_no; lia). replace (inr old (old + osz) new) with false by (symmetry; apply inr_no; lia).
    rewrite !assert_true by reflexivity. destruct (alloc_same (new + nsz) k) as (A1 & A2 & A3 & A4 & A5 & A6). set (k1 := shm_alloc (new + nsz) k) in *.
    unfold mmap_into_plugin, mmap_into_shadow, s_mmap. replace (new + nsz - new) with nsz by lia. rewrite (rup_whole nsz) by assumption.
    set (k3 := set_shad _ _).
    assert (S3 : k_shad k3 = over b (b + nsz) (fun y => Some (r_prot r, new + (y - b))) (k_shad k)) by (unfold k3; cbn; now rewrite A1).
    assert (NB : forall y, r_base r <= y < r_base r + osz -> ~ (b <= y < b + nsz)).
    { intros y Y H. destruct (FREE y H _ _ (inbase y Y)) as [_ X]. tauto. }
    pose proof (rup_le (k_flen k)). pose proof (rup_le (k_flen k1)). pose proof (rup_whole _ AOS).
    destruct (copy_ok (Z.to_nat (Z.min osz nsz)) k3 (r_base r) b old new (r_prot r) (r_prot r)) as (k4 & E4 & C1 & C2 & C3 & C4 & C5).
    { rewrite Z2Nat.id by lia. intros i Hi. rewrite S3. change (k_flen k3) with (k_flen k1).
      rewrite over_out by (apply NB; lia). rewrite over_in by lia. rewrite inbase by lia. repeat (split; [do 2 f_equal; lia|]). lia. }
    { now rewrite RWP. }
    { now rewrite RWP. }
    { rewrite Z2Nat.id by lia. lia. }
    rewrite E4. ob. unfold shm_dealloc. rewrite assert_true by lia. ob. rewrite Z2Nat.id in C5 by lia.
    eexists _, (with_base b r). split; [reflexivity|]. unfold s_munmap. replace (r_base r mod PAGE =? 0) with true by (symmetry; apply Z.eqb_eq; exact RB).
    rewrite (rup_whole osz) by assumption. cbn [f_punch set_file set_shad k_shad k_plug k_file k_flen k_obj with_base r_base r_prot r_path].
    rewrite C1, C2, C3, C4, S3. change (k_flen k3) with (k_flen k1). change (k_obj k3) with (k_obj k1).
    repeat (split; [solve [auto|lia]|]). split; [|split; [|split; [|split]]].
    + intros y Y. rewrite over_out by (intros H9; exact (NB y H9 Y)). rewrite over_in by exact Y. reflexivity.
    + intros y Y p x. rewrite <- REST. destruct (inr_dec (r_base r) (r_base r + osz) y) as [H9|H9].
      * rewrite over_in by exact H9. apply inr_iff in H9. rewrite H9. tauto.
      * rewrite over_out by exact H9. rewrite over_out by exact Y. apply inr_no in H9. rewrite H9. tauto.
    + intros y Y p x E. exact (proj1 (FREE y Y p x E)).
    + intros x. change (k_file k3) with (k_file k1) in C5. destruct (inr_dec new (new + nsz) x) as [H9|H9].
      * rewrite (proj2 (inr_iff _ _ _) H9). rewrite over_out by lia. rewrite C5, A2. destruct (Z.ltb_spec (x - new) osz) as [H8|H8].
        -- rewrite (proj2 (inr_iff new (new + Z.min osz nsz) x)) by lia. reflexivity.
        -- rewrite (proj2 (inr_no new (new + Z.min osz nsz) x)) by lia. apply ZERO; lia.
      * rewrite (proj2 (inr_no _ _ _) H9). destruct (inr_dec old (old + osz) x) as [H8|H8].
        -- rewrite (proj2 (inr_iff _ _ _) H8). now apply over_in.
        -- rewrite (proj2 (inr_no _ _ _) H8). rewrite over_out by exact H8. rewrite C5, A2, (proj2 (inr_no new (new + Z.min osz nsz) x)) by lia. reflexivity.
    + intros x. unfold k3. cbn. destruct (inr_dec new (new + nsz) x) as [H9|H9].
      * rewrite (proj2 (inr_iff _ _ _) H9), over_in by exact H9. do 3 f_equal. lia.
      * rewrite (proj2 (inr_no _ _ _) H9), over_out by exact H9. now rewrite A3.
Qed.
End Remap.
