(** Whole runs, and the end of a mapper. *)
From Verif Require Import Base IntervalModel IntervalSpec IntervalProofs MemKernel MemModel MemSpec MemLayout MemUnmap MemProtect MemRel MemSteps MemAccess MemGrow MemRemap MemBrk.

Lemma any_ok top s n l o : rel top s n l -> kernel_allows (n_k n) (n_heap n) o -> shadow_allows (s_k s) (n_heap n) o -> supported top n o ->
  follows top s n o.
Proof.
  intros R KA SA SU. destruct o.
  - eapply mmap_ok; eauto.
  - eapply munmap_ok; eauto.
  - eapply mremap_ok; eauto.
  - eapply mprotect_ok; eauto.
  - eapply brk_ok; eauto.
  - eapply load_ok; eauto.
  - eapply store_ok; eauto.
  - eapply read_ok; eauto.
  - eapply oprefix_ok; eauto.
  - eapply string_ok; eauto.
  - eapply write_ok; eauto.
  - eapply other_ok; eauto.
Qed.

Lemma run_ok top ops : forall s n l, rel top s n l -> runs top s n ops ->
  exists s', final s ops = Some s' /\ answers s ops = Some (native_answers n ops) /\ exists l', rel top s' (native_final n ops) l'.
Proof.
  induction ops as [|o ops IH]; intros s n l R RU.
  - exists s. cbn. eauto.
  - inversion RU as [|? ? ? ? KA SA SU NX]; subst. destruct (any_ok top s n l o R KA SA SU) as (s1 & l1 & E & R1).
    destruct (IH s1 _ l1 R1 (NX _ _ E)) as (s' & E2 & E3 & R'). exists s'. cbn [final answers native_answers native_final]. rewrite E. ob.
    rewrite E2, E3. ob. auto.
Qed.

Lemma seen_ok top s n l x : rel top s n l -> seen (s_k s) x = seen (n_k n) x.
Proof.
  intros R. unfold seen. rewrite (re_see _ _ _ _ R). unfold view. destruct (k_plug (s_k s) x) as [[p c]|] eqn:E; [|reflexivity]. cbn.
  destruct c as [y|v|o off]; cbn; [|reflexivity|now rewrite (re_obj _ _ _ _ R)].
  destruct (in_file _ _ _ _ _ _ _ R E) as [-> LT]. apply Z.ltb_lt in LT. now rewrite LT.
Qed.

(** Shadow's mappings are those of the process's shared memory *)
Lemma mirror_ok top s n l : rel top s n l -> mirrors (s_k s).
Proof.
  intros R. pose proof (re_lay _ _ _ _ R) as L. pose proof (re_pl _ _ _ _ R) as P. pose proof (la_wf _ _ _ L) as W. split; [|split; [|split]].
  - intros y p x E. destruct (la_rev _ _ _ L _ _ _ E eq_refl) as (q & I & NB & X & Y). rewrite (pl_shm _ _ P q x I NB X). do 2 f_equal.
    pose proof (la_map _ _ _ L q x I NB X) as M. rewrite <- Y in M. congruence.
  - intros x p y E. destruct (in_file _ _ _ _ _ _ _ R E) as [-> _]. destruct (pl_in _ _ P x) as (q & I & X); [congruence|].
    destruct (Z.eq_dec (base q) 0) as [Z0|Z0].
    + destruct (pl_oth _ _ P q x I Z0 X) as (p' & c & E' & N). rewrite E in E'. injection E' as <- <-. destruct N.
    + rewrite (pl_shm _ _ P q x I Z0 X) in E. injection E as <-. exists (base q + (x - st q)). exact (la_map _ _ _ L q x I Z0 X).
  - intros y y' p p' x E E'. destruct (la_rev _ _ _ L _ _ _ E eq_refl) as (q & I & NB & X & ->). destruct (la_rev _ _ _ L _ _ _ E' eq_refl) as (q' & I' & NB' & X' & ->).
    assert (q' = q) by (apply (wf_unique l q' q x W I' I); assumption). now subst q'.
  - intros x NZ. destruct (la_zero _ _ _ L x NZ eq_refl) as (q & I & NB & X). rewrite (pl_shm _ _ P q x I NB X). eauto.
Qed.

(** * Drop *)
Lemma drop_loop (l : list ent) : forall k, (forall q, In q l -> base q <> 0 -> aligned (base q)) -> (forall q, In q l -> aligned (en q - st q)) ->
  k_plug (drop_all k (map (fun q => Removed (st q, en q) (snd q)) l)) = k_plug k /\
  forall y, k_shad (drop_all k (map (fun q => Removed (st q, en q) (snd q)) l)) y =
    if existsb (fun q => negb (base q =? 0) && inr (base q) (base q + (en q - st q)) y) l then None else k_shad k y.
Proof.
  induction l as [|q l IH]; intros k AB AL; cbn [map drop_all existsb]; [auto|].
  destruct (IH (if base q =? 0 then k else s_munmap (base q) (en q - st q) k)) as [E1 E2]; [intros; apply AB; cbn; auto|intros; apply AL; cbn; auto|].
  rewrite E1. destruct (Z.eqb_spec (base q) 0) as [Z0|Z0]; cbn [negb andb orb].
  - split; [reflexivity|]. exact E2.
  - assert (AQ : aligned (base q)) by (apply AB; cbn; auto). assert (AE : aligned (en q - st q)) by (apply AL; cbn; auto).
    unfold s_munmap in *. replace (base q mod PAGE =? 0) with true in * by (symmetry; apply Z.eqb_eq; exact AQ). rewrite (rup_whole _ AE) in *.
    split; [reflexivity|]. intros y. rewrite E2. cbn. destruct (existsb _ l); [now rewrite orb_true_r|]. rewrite orb_false_r. reflexivity.
Qed.
Lemma drop_ok top s n l : rel top s n l -> exists k, mapper_drop s = Some k /\ k_plug k = k_plug (s_k s) /\ forall y, k_shad k y = None.
Proof.
  intros R. pose proof (re_lay _ _ _ _ R) as L. pose proof (la_wf _ _ _ L) as W. unfold mapper_drop. rewrite (re_map _ _ _ _ R).
  assert (U : 0 < U64_MAX) by reflexivity.
  destruct (step_ok l (IClear 0 U64_MAX) W U) as (lc & E & _). cbn [op_range op_value fst snd im_step] in *. rewrite E. ob.
  assert (EF : flat_map (report 0 U64_MAX) l = map (fun q => Removed (st q, en q) (snd q)) l).
  { assert (H : forall q, In q l -> st q < en q /\ 0 <= st q /\ en q <= U64_MAX).
    { intros q I. destruct (la_al _ _ _ L q I) as (_ & _ & A & B). pose proof (wf_pos _ _ W I). lia. }
    clear - H U. induction l as [|q l IH]; [reflexivity|]. cbn [flat_map map]. rewrite IH by (intros; apply H; cbn; auto).
    destruct (H q (or_introl eq_refl)) as (A & B & C). pose proof (touches_ok 0 U64_MAX U q A) as T. destruct T; try lia. reflexivity. }
  rewrite EF. destruct (drop_loop l (s_k s)) as [E1 E2].
  { intros q I NB. apply (la_shm _ _ _ L q I NB). }
  { intros q I. destruct (la_al _ _ _ L q I) as (A & B & _). now apply al_sub. }
  eexists. split; [reflexivity|]. split; [exact E1|]. intros y. rewrite E2. destruct (existsb _ l) eqn:X; [reflexivity|].
  destruct (k_shad (s_k s) y) as [[p x]|] eqn:Q; [|reflexivity]. exfalso. destruct (la_rev _ _ _ L _ _ _ Q eq_refl) as (q & I & NB & X2 & ->).
  assert (H : existsb (fun q0 : ent => negb (base q0 =? 0) && inr (base q0) (base q0 + (en q0 - st q0)) (base q + (x - st q))) l = true).
  { apply existsb_exists. exists q. split; [exact I|]. apply andb_true_iff. split; [apply negb_true_iff, Z.eqb_neq; exact NB|]. apply inr_iff. lia. }
  congruence.
Qed.
