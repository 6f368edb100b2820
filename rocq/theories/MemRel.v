(** The relation between Shadow's state and the process directly on the kernel, and what keeps it. *)
From Verif Require Import Base IntervalModel IntervalSpec IntervalProofs MemKernel MemModel MemSpec MemLayout MemUnmap MemProtect.

Definition kind (r : region) : akind := match r_path r with Some PHeap => KHeap | Some PStack => KStack | _ => KMap end.
Definition not_shm (c : cell) : Prop := match c with CShm _ => False | _ => True end.
(** what the process has in place of the shared memory file *)
Definition solo (k : kern) (c : cell) : cell := match c with CShm y => CPriv (k_file k y) | _ => c end.
Definition view (k : kern) (x : Z) : option (prot * cell) := option_map (fun y => (fst y, solo k (snd y))) (k_plug k x).

(** The process's mappings are those of the regions. *)
Record pl (k : kern) (l : list ent) : Prop := {
  pl_shm : forall q x, In q l -> base q <> 0 -> st q <= x < en q -> k_plug k x = Some (r_prot (snd q), CShm x);
  pl_oth : forall q x, In q l -> base q = 0 -> st q <= x < en q -> exists p c, k_plug k x = Some (p, c) /\ not_shm c;
  pl_in : forall x, k_plug k x <> None -> exists q, In q l /\ st q <= x < en q }.

Definition areas_ok (a : list area) (l : list ent) : Prop :=
  forall i d, In (i, d) a <-> exists r, In (i, r) l /\ kind r = d.

Record rel (top : Z) (s : state) (n : native) (l : list ent) : Prop := {
  re_map : mm_regs (s_m s) = of_list l;
  re_lay : lay none (s_k s) l;
  re_pl : pl (s_k s) l;
  re_heap : mm_heap (s_m s) = n_heap n;
  re_hal : aligned (fst (n_heap n)) /\ aligned (snd (n_heap n)) /\ 0 < fst (n_heap n) <= snd (n_heap n);
  re_top : top <= k_flen (s_k s);
  re_see : forall x, k_plug (n_k n) x = view (s_k s) x;
  re_obj : k_obj (n_k n) = k_obj (s_k s);
  re_areas : areas_ok (n_areas n) l }.

Lemma rup_le x : x <= rup x.
Proof.
  Transparent rup PAGE. unfold rup, PAGE. pose proof (Z.mod_pos_bound (x + 4095) 4096 ltac:(lia)).
  pose proof (Z.div_mod (x + 4095) 4096 ltac:(lia)). change (4096 - 1) with 4095. lia.
Qed.
#[global] Opaque rup PAGE.
Lemma whole_al x : whole x -> aligned x.
Proof. exact (fun H => H). Qed.

(** * Unmapped is outside all regions *)
Lemma unmapped_out top s n l a b : rel top s n l -> unmapped (n_k n) a b -> forall q x, In q l -> st q <= x < en q -> ~ (a <= x < b).
Proof.
  intros R U q x I X H. specialize (U x H). rewrite (re_see _ _ _ _ R) in U. unfold view in U.
  destruct (Z.eq_dec (base q) 0) as [Z0|Z0].
  - destruct (pl_oth _ _ (re_pl _ _ _ _ R) q x I Z0 X) as (p & c & E & _). rewrite E in U. discriminate.
  - rewrite (pl_shm _ _ (re_pl _ _ _ _ R) q x I Z0 X) in U. discriminate.
Qed.
Lemma unmapped_free l a b : WF l -> a < b -> (forall (q : ent) x, In q l -> st q <= x < en q -> ~ (a <= x < b)) ->
  forall q, In q l -> en q <= a \/ b <= st q.
Proof.
  intros W LT U q I. pose proof (wf_pos _ _ W I) as P. destruct (Z_le_gt_dec (en q) a); [auto|]. destruct (Z_le_gt_dec b (st q)); [auto|].
  exfalso. apply (U q (Z.max a (st q)) I); lia.
Qed.

(** * Layout *)
Lemma lay_ext G k k' l : k_shad k' = k_shad k -> k_file k' = k_file k -> k_flen k' = k_flen k -> lay G k l -> lay G k' l.
Proof. intros A B C [X1 X2 X3 X4 X5 X6 X7 X8]. split; rewrite ?A, ?B, ?C; auto. Qed.

(** a new region *)
Lemma lay_put G k k' l l' s t r b : lay G k l -> WF l' -> (forall p, In p l' <-> p = ((s, t), r) \/ In p l) ->
  s < t -> aligned s -> aligned t -> 0 <= s -> t <= U64_MAX ->
  r_base r = b -> aligned b -> 0 < b -> not_file (r_path r) ->
  k_flen k <= k_flen k' -> t <= k_flen k' ->
  (forall y, b <= y < b + (t - s) -> k_shad k' y = Some (r_prot r, s + (y - b))) ->
  (forall y, ~ (b <= y < b + (t - s)) -> forall p x, k_shad k' y = Some (p, x) <-> k_shad k y = Some (p, x) /\ G x = false) ->
  (forall y, b <= y < b + (t - s) -> forall p x, k_shad k y = Some (p, x) -> G x = true) ->
  (forall x, k_file k' x <> 0 -> (k_file k x <> 0 /\ G x = false) \/ s <= x < t) ->
  lay none k' l'.
Proof.
  intros L W M ST AS AT S0 TM EB AB B0 NF FL FT H1 H2 H3 H4. split.
  - exact W.
  - intros q I. apply M in I as [->|I]; [unfold st, en; cbn; auto|exact (la_al _ _ _ L q I)].
  - intros q I NB. apply M in I as [->|I].
    + unfold en. cbn. subst b. auto.
    + destruct (la_shm _ _ _ L q I NB) as (A & B & C & D). repeat (split; auto; try lia).
  - intros q I PH. apply M in I as [->|I]; [cbn; lia|exact (la_heap _ _ _ L q I PH)].
  - intros q x I NB X. apply M in I as [->|I].
    + unfold st, en in *. cbn in *. rewrite EB, H1 by lia. f_equal. f_equal. lia.
    + pose proof (la_map _ _ _ L q x I NB X) as E. pose proof (la_out _ _ _ L q x I X) as HG.
      destruct (inr_dec b (b + (t - s)) (base q + (x - st q))) as [H|H].
      * rewrite (H3 _ H _ _ E) in HG. discriminate.
      * apply H2; auto.
  - intros y p x E _. destruct (inr_dec b (b + (t - s)) y) as [H|H].
    + rewrite H1 in E by exact H. injection E as <- <-. exists ((s, t), r). split; [apply M; auto|]. unfold st, en. cbn. lia.
    + apply H2 in E as [E HG]; [|exact H]. destruct (la_rev _ _ _ L _ _ _ E HG) as (q & I & X). exists q. split; [apply M; auto|exact X].
  - intros x NZ _. destruct (H4 x NZ) as [[NZ' HG]|X].
    + destruct (la_zero _ _ _ L x NZ' HG) as (q & I & X). exists q. split; [apply M; auto|exact X].
    + exists ((s, t), r). split; [apply M; auto|]. unfold st, en. cbn. lia.
  - reflexivity.
Qed.
Lemma lay_put0 k l l' s t r : lay none k l -> WF l' -> (forall p, In p l' <-> p = ((s, t), r) \/ In p l) ->
  aligned s -> aligned t -> 0 <= s -> t <= U64_MAX -> r_base r = 0 -> r_path r <> Some PHeap -> lay none k l'.
Proof.
  intros L W M AS AT S0 TM EB NH. split.
  - exact W.
  - intros q I. apply M in I as [->|I]; [unfold st, en; cbn; auto|exact (la_al _ _ _ L q I)].
  - intros q I NB. apply M in I as [->|I]; [cbn in NB; contradiction|exact (la_shm _ _ _ L q I NB)].
  - intros q I PH. apply M in I as [->|I]; [cbn in PH; contradiction|exact (la_heap _ _ _ L q I PH)].
  - intros q x I NB X. apply M in I as [->|I]; [cbn in NB; contradiction|exact (la_map _ _ _ L q x I NB X)].
  - intros y p x E HG. destruct (la_rev _ _ _ L _ _ _ E HG) as (q & I & X). exists q. split; [apply M; auto|exact X].
  - intros x NZ HG. destruct (la_zero _ _ _ L x NZ HG) as (q & I & X). exists q. split; [apply M; auto|exact X].
  - reflexivity.
Qed.
(** a region taken out *)
Lemma lay_drop k l l0 q : lay none k l -> In q l -> WF l0 -> (forall p, In p l0 <-> In p l /\ fst p <> fst q) ->
  lay (inr (st q) (en q)) k l0.
Proof.
  intros L IQ W M. pose proof (la_wf _ _ _ L) as WL.
  assert (OUT : forall p x, In p l0 -> st p <= x < en p -> ~ (st q <= x < en q)).
  { intros p x I X Y. apply M in I as [I N]. apply N. f_equal. apply (wf_unique l p q x WL I IQ); lia. }
  assert (KEEP : forall p x, In p l -> st p <= x < en p -> ~ (st q <= x < en q) -> In p l0).
  { intros p x I X Y. apply M. split; [exact I|]. intros E. apply Y. unfold st, en in *. rewrite <- E. exact X. }
  split.
  - exact W.
  - intros p I. apply M in I as [I _]. exact (la_al _ _ _ L p I).
  - intros p I. apply M in I as [I _]. exact (la_shm _ _ _ L p I).
  - intros p I. apply M in I as [I _]. exact (la_heap _ _ _ L p I).
  - intros p x I. apply M in I as [I _]. exact (la_map _ _ _ L p x I).
  - intros y p x E HG. apply inr_no in HG. destruct (la_rev _ _ _ L _ _ _ E eq_refl) as (p0 & I & NB & X & Y). exists p0. eauto.
  - intros x NZ HG. apply inr_no in HG. destruct (la_zero _ _ _ L x NZ eq_refl) as (p0 & I & NB & X). exists p0. eauto.
  - intros p x I X. apply inr_no. eauto.
Qed.
Lemma lay_drop0 k l l0 q : lay none k l -> In q l -> base q = 0 -> WF l0 -> (forall p, In p l0 <-> In p l /\ fst p <> fst q) ->
  lay none k l0.
Proof.
  intros L IQ B0 W M. pose proof (la_wf _ _ _ L) as WL.
  assert (KEEP : forall p, In p l -> base p <> 0 -> In p l0).
  { intros p I NB. apply M. split; [exact I|]. intros E. pose proof (wf_pos _ _ WL I). assert (p = q); [|congruence].
    apply (wf_unique l p q (st p) WL I IQ); unfold st, en in *; [lia|]. rewrite <- E. lia. }
  split.
  - exact W.
  - intros p I. apply M in I as [I _]. exact (la_al _ _ _ L p I).
  - intros p I. apply M in I as [I _]. exact (la_shm _ _ _ L p I).
  - intros p I. apply M in I as [I _]. exact (la_heap _ _ _ L p I).
  - intros p x I. apply M in I as [I _]. exact (la_map _ _ _ L p x I).
  - intros y p x E HG. destruct (la_rev _ _ _ L _ _ _ E eq_refl) as (p0 & I & NB & X & Y). exists p0. auto.
  - intros x NZ HG. destruct (la_zero _ _ _ L x NZ eq_refl) as (p0 & I & NB & X). exists p0. auto.
  - reflexivity.
Qed.

(** * The process's mappings *)
(** [D]: bytes that do not change; the others belong to the new region [n] or to none. *)
Lemma pl_step k k' l l' (D : Z -> Prop) (N : ent -> Prop) : pl k l ->
  (forall x, D x -> k_plug k' x = k_plug k x) ->
  (forall p, In p l' -> N p \/ exists q, In q l /\ r_prot (snd p) = r_prot (snd q) /\ (base p = 0 <-> base q = 0) /\
     forall x, st p <= x < en p -> st q <= x < en q /\ D x) ->
  (forall p x, In p l' -> N p -> st p <= x < en p ->
     if base p =? 0 then exists pr c, k_plug k' x = Some (pr, c) /\ not_shm c else k_plug k' x = Some (r_prot (snd p), CShm x)) ->
  (forall x, k_plug k' x <> None -> (exists p, In p l' /\ st p <= x < en p) \/ (D x /\ forall q, In q l -> st q <= x < en q -> exists p, In p l' /\ st p <= x < en p)) ->
  pl k' l'.
Proof.
  intros [P1 P2 P3] HD HL HN HC. split.
  - intros p x I NB X. destruct (HL p I) as [H|(q & IQ & EP & EB & IN)].
    + specialize (HN p x I H X). destruct (Z.eqb_spec (base p) 0); [contradiction|exact HN].
    + destruct (IN x X) as [XQ DX]. rewrite HD by exact DX. rewrite EP. apply P1; auto. tauto.
  - intros p x I B0 X. destruct (HL p I) as [H|(q & IQ & EP & EB & IN)].
    + specialize (HN p x I H X). destruct (Z.eqb_spec (base p) 0); [exact HN|contradiction].
    + destruct (IN x X) as [XQ DX]. rewrite HD by exact DX. apply (P2 q); auto. tauto.
  - intros x NX. destruct (HC x NX) as [H|[DX H]]; [exact H|]. rewrite HD in NX by exact DX. destruct (P3 x NX) as (q & I & X). eauto.
Qed.

Lemma shift_prot q b : r_prot (shift q b) = r_prot (snd q).
Proof. unfold shift. destruct (base q =? 0); reflexivity. Qed.
Lemma shift_kind q b : kind (shift q b) = kind (snd q).
Proof. unfold shift. destruct (base q =? 0); reflexivity. Qed.
Lemma shift_base G k l q b : lay G k l -> In q l -> st q <= b -> (r_base (shift q b) = 0 <-> base q = 0).
Proof.
  intros L I LE. unfold shift. destruct (Z.eqb_spec (base q) 0) as [E|E]; [rewrite E; tauto|]. destruct (la_shm _ _ _ L q I E) as (_ & P & _).
  cbn. lia.
Qed.

(** * Areas *)
Lemma in_cut s t a i d : In (i, d) (cut s t a) <-> exists b e, In ((b, e), d) a /\ In i (remainder b e s t).
Proof.
  unfold cut. rewrite in_flat_map. split.
  - intros ([[b e] d'] & I & J). apply in_map_iff in J as (j & E & J). injection E as -> ->. eauto.
  - intros (b & e & I & J). exists ((b, e), d). split; [exact I|]. apply in_map_iff. eauto.
Qed.
Lemma in_inter s t a i d : In (i, d) (inter s t a) <-> exists b e, In ((b, e), d) a /\ Z.max b s < Z.min e t /\ i = (Z.max b s, Z.min e t).
Proof.
  unfold inter. rewrite in_flat_map. split.
  - intros ([[b e] d'] & I & J). destruct (Z.ltb_spec (Z.max b s) (Z.min e t)); [|destruct J]. destruct J as [J|[]]. injection J as <- ->. eauto.
  - intros (b & e & I & LT & ->). exists ((b, e), d). split; [exact I|]. destruct (Z.ltb_spec (Z.max b s) (Z.min e t)); [cbn; auto|lia].
Qed.
Lemma areas_cut a l l' s t : areas_ok a l ->
  (forall p, In p l' <-> exists q, In q l /\ In (fst p) (rem s t q) /\ snd p = shift q (st p)) ->
  areas_ok (cut s t a) l'.
Proof.
  intros A M i d. rewrite in_cut. split.
  - intros (b & e & I & J). apply A in I as (r & I & K). exists (shift ((b, e), r) (fst i)). split; [|now rewrite shift_kind].
    apply M. exists ((b, e), r). auto.
  - intros (r & I & K). apply M in I as (q & I & J & E). cbn [fst snd] in *. destruct q as [[b e] r']. exists b, e. split; [|exact J].
    apply A. exists r'. split; [exact I|]. rewrite <- K, E, shift_kind. reflexivity.
Qed.
Lemma areas_cons a l l' i r : areas_ok a l -> (forall p, In p l' <-> p = (i, r) \/ In p l) -> areas_ok ((i, kind r) :: a) l'.
Proof.
  intros A M j d. cbn [In]. rewrite (A j d). split.
  - intros [E|(r' & I & K)]; [injection E as <- <-; exists r; split; [apply M; auto|reflexivity]|]. exists r'. split; [apply M; auto|exact K].
  - intros (r' & I & K). apply M in I as [E|I]; [injection E as -> ->; left; now rewrite K|right; eauto].
Qed.
Lemma areas_protect a l l' s t P : areas_ok a l ->
  (forall p, In p l' <-> (exists q, In q l /\ In (fst p) (rem s t q) /\ snd p = shift q (st p)) \/
                         (exists q, In q l /\ Z.max (st q) s < Z.min (en q) t /\ p = mid s t P q)) ->
  areas_ok (inter s t a ++ cut s t a) l'.
Proof.
  intros A M i d. rewrite in_app_iff, in_cut, in_inter. split.
  - intros [(b & e & I & LT & ->)|(b & e & I & J)]; apply A in I as (r & I & K).
    + exists (snd (mid s t P ((b, e), r))). split; [|rewrite <- K; exact (shift_kind (b, e, r) (Z.max b s))].
      apply M. right. exists ((b, e), r). auto.
    + exists (shift ((b, e), r) (fst i)). split; [|now rewrite shift_kind]. apply M. left. exists ((b, e), r). auto.
  - intros (r & I & K). apply M in I as [(q & I & J & E)|(q & I & LT & E)].
    + right. cbn [fst snd] in *. destruct q as [[b e] r']. exists b, e. split; [|exact J].
      apply A. exists r'. split; [exact I|]. rewrite <- K, E, shift_kind. reflexivity.
    + left. destruct q as [[b e] r']. unfold mid in E. injection E as -> ->. exists b, e. split; [|auto].
      apply A. exists r'. split; [exact I|]. rewrite <- K. symmetry. exact (shift_kind (b, e, r') (Z.max b s)).
Qed.

(** * What the process sees *)
Lemma view_at k x : k_plug k x = None -> view k x = None.
Proof. intros E. unfold view. now rewrite E. Qed.
Lemma view_same k k' x : k_plug k' x = k_plug k x -> k_file k' x = k_file k x -> (forall p y, k_plug k x = Some (p, CShm y) -> y = x) -> view k' x = view k x.
Proof.
  intros A B C. unfold view. rewrite A. destruct (k_plug k x) as [[p c]|] eqn:E; [|reflexivity]. cbn. f_equal. f_equal.
  destruct c; cbn; auto. rewrite (C _ _ eq_refl). f_equal. exact B.
Qed.
Lemma shm_at k l : pl k l -> forall x p y, k_plug k x = Some (p, CShm y) -> y = x.
Proof.
  intros [P1 P2 P3] x p y E. destruct (P3 x) as (q & I & X); [congruence|]. destruct (Z.eq_dec (base q) 0) as [Z0|Z0].
  - destruct (P2 q x I Z0 X) as (p' & c & E' & N). rewrite E in E'. injection E' as <- <-. destruct N.
  - rewrite (P1 q x I Z0 X) in E. congruence.
Qed.
