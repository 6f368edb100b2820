(** Proofs about the shared-memory allocator. *)
From Verif Require Import Base FMap ShmModel ShmSpec.

Lemma hdr_sizes debug : 0 < CHUNK_HDR debug /\ 0 < BLOCK_STRUCT_NBYTES debug
  /\ CHUNK_HDR debug mod 8 = 0 /\ BLOCK_STRUCT_NBYTES debug mod 8 = 0
  /\ CHUNK_HDR debug <= 296 /\ BLOCK_STRUCT_NBYTES debug <= 32.
Proof. destruct debug; cbn; repeat split; lia. Qed.

Lemma chunk_nbytes : CHUNK_NBYTES = 8388608.
Proof. reflexivity. Qed.

Lemma align_offset_range p a : 0 < a -> 0 <= align_offset p a < a.
Proof. intros H. unfold align_offset. apply Z.mod_pos_bound. exact H. Qed.
Lemma align_offset_aligned p a : 0 < a -> align_offset (p + align_offset p a) a = 0.
Proof.
  intros H. unfold align_offset.
  replace (- (p + (- p) mod a)) with (- p - (- p) mod a) by lia.
  rewrite Zminus_mod_idemp_r. replace (- p - - p) with 0 by lia. reflexivity.
Qed.
Lemma align_offset_zero p a : 0 < a -> p mod a = 0 -> align_offset p a = 0.
Proof. intros H E. unfold align_offset. apply Z.mod_opp_l_z; lia. Qed.
Lemma align_offset_mod p a : 0 < a -> align_offset p a = 0 -> p mod a = 0.
Proof.
  intros H E. unfold align_offset in E. rewrite <- (Z.opp_involutive p). apply Z.mod_opp_l_z; [lia|exact E].
Qed.

Lemma overlaps_apart a n b m : overlaps a n b m = false <-> apart a n b m.
Proof. unfold overlaps, apart. lia. Qed.

Lemma keys_put {V} q p (v : V) (m : fmap Z V) : In q (keys (put p v m)) <-> q = p \/ In q (keys m).
Proof.
  unfold put. change (keys ((p, v) :: del p m)) with (p :: keys (del p m)). cbn [In]. rewrite keys_del.
  destruct (Z.eq_dec q p) as [->|N]; [tauto|]. intuition congruence.
Qed.

Lemma get_cons {V} (q p : Z) (v : V) (m : fmap Z V) : get q ((p, v) :: m) = if eqb q p then Some v else get q m.
Proof. reflexivity. Qed.

(** ** Clobbering changes nothing when nothing overlaps *)
Lemma filter_all {A} (f : A -> bool) l : (forall x, In x l -> f x = true) -> filter f l = l.
Proof.
  induction l as [|x l IH]; intros H; [reflexivity|]. cbn. rewrite (H x) by now left. f_equal.
  apply IH. intros y I. apply H. now right.
Qed.
Lemma clobber_blocks_id debug a n (m : fmap Z block) :
  (forall p, In p (keys m) -> apart a n p (BLOCK_STRUCT_NBYTES debug)) -> clobber_blocks debug a n m = m.
Proof.
  intros H. apply filter_all. intros [p b] I. cbn.
  assert (E : overlaps a n p (BLOCK_STRUCT_NBYTES debug) = false).
  { apply overlaps_apart, H. apply in_map_iff. now exists (p, b). }
  now rewrite E.
Qed.
Lemma clobber_chunks_id debug a n (m : fmap Z chunk) :
  (forall p, In p (keys m) -> apart a n p (CHUNK_HDR debug)) -> clobber_chunks debug a n m = m.
Proof.
  intros H. apply filter_all. intros [p b] I. cbn.
  assert (E : overlaps a n p (CHUNK_HDR debug) = false).
  { apply overlaps_apart, H. apply in_map_iff. now exists (p, b). }
  now rewrite E.
Qed.

(** ** The memory layout *)
Section Debug.
Variable debug : bool.
Notation CH := (CHUNK_HDR debug).
Notation BS := (BLOCK_STRUCT_NBYTES debug).

Definition extent (b : block) : Z := b_off b + b_nbytes b.

Record minv (m : memory) : Prop := mkMinv {
  mi_ndb : NoDup (keys (m_blocks m));
  mi_ndc : NoDup (keys (m_chunks m));
  mi_chunk : forall c ch, get c (m_chunks m) = Some ch ->
    0 < c /\ c mod 8 = 0 /\ c_nbytes ch = CHUNK_NBYTES /\ 0 <= c_cur ch <= CHUNK_NBYTES;
  mi_cdisj : forall c c', In c (keys (m_chunks m)) -> In c' (keys (m_chunks m)) -> c <> c' ->
    apart c CHUNK_NBYTES c' CHUNK_NBYTES;
  mi_block : forall p b, get p (m_blocks m) = Some b ->
    BS <= b_off b /\ 0 < b_nbytes b /\
    exists c ch, get c (m_chunks m) = Some ch /\ c + CH <= p /\ p + extent b <= c + c_cur ch;
  mi_bdisj : forall p b q b', get p (m_blocks m) = Some b -> get q (m_blocks m) = Some b' -> p <> q ->
    apart p (extent b) q (extent b') }.

Lemma BS_pos : 0 < BS. Proof. apply hdr_sizes. Qed.
Lemma CH_pos : 0 < CH. Proof. apply hdr_sizes. Qed.

Lemma block_pos m p b : minv m -> get p (m_blocks m) = Some b -> 0 < p.
Proof.
  intros I G. destruct (mi_block m I _ _ G) as (_ & _ & c & ch & Gc & L & _).
  destruct (mi_chunk m I _ _ Gc) as (P & _). pose proof CH_pos. lia.
Qed.
Lemma get_block_null m : minv m -> get 0 (m_blocks m) = None.
Proof. intros I. destruct (get 0 (m_blocks m)) as [b|] eqn:E; [|reflexivity]. pose proof (block_pos m _ _ I E). lia. Qed.

(** A range inside a block's extent, past its header, meets no header. *)
Lemma data_apart_blocks m p b x n : minv m -> get p (m_blocks m) = Some b ->
  p + b_off b <= x -> x + n <= p + extent b -> 0 <= n ->
  forall q, In q (keys (m_blocks m)) -> apart x n q BS.
Proof.
  intros I G Lx Ux N q Iq. destruct (keys_get _ _ Iq) as [b' G'].
  destruct (mi_block m I _ _ G) as (O & P & _). destruct (mi_block m I _ _ G') as (O' & P' & _).
  unfold apart. destruct (Z.eq_dec p q) as [<-|NE].
  - right. lia.
  - pose proof (mi_bdisj m I _ _ _ _ G G' NE) as D. pose proof BS_pos. unfold apart, extent in *. lia.
Qed.
Lemma range_apart_chunks m x n c0 ch0 : minv m -> get c0 (m_chunks m) = Some ch0 ->
  c0 + CH <= x -> x + n <= c0 + CHUNK_NBYTES -> 0 <= n ->
  forall q, In q (keys (m_chunks m)) -> apart x n q CH.
Proof.
  intros I G Lx Ux N q Iq. unfold apart. pose proof CH_pos.
  assert (CH <= CHUNK_NBYTES) by (rewrite chunk_nbytes; pose proof (hdr_sizes debug); lia).
  destruct (Z.eq_dec c0 q) as [<-|NE]; [right; lia|].
  pose proof (mi_cdisj m I c0 q (get_keys _ _ _ G) Iq NE) as D. unfold apart in D. lia.
Qed.

(** ** User writes *)
Lemma write_byte_frame m p b x v : minv m -> get p (m_blocks m) = Some b ->
  p + b_off b <= x < p + extent b ->
  write_byte debug x v m = mkMem (m_blocks m) (m_chunks m) (fill x 1 v (m_bytes m)).
Proof.
  intros I G R. unfold write_byte. destruct (mi_block m I _ _ G) as (O & P & c & ch & Gc & L & U).
  destruct (mi_chunk m I _ _ Gc) as (_ & _ & _ & Cu). pose proof BS_pos.
  rewrite clobber_blocks_id.
  - rewrite clobber_chunks_id; [reflexivity|].
    apply (range_apart_chunks m x 1 c ch I Gc); unfold extent in *; lia.
  - apply (data_apart_blocks m p b x 1 I G); lia.
Qed.

Lemma minv_bytes m f : minv m -> minv (mkMem (m_blocks m) (m_chunks m) f).
Proof. intros I. destruct I. constructor; cbn; assumption. Qed.

Fixpoint fills (p : Z) (vs : list Z) (f : Z -> Z) : Z -> Z :=
  match vs with [] => f | v :: vs => fills (p + 1) vs (fill p 1 v f) end.

Lemma write_bytes_frame p b : forall vs m x, minv m -> get p (m_blocks m) = Some b ->
  p + b_off b <= x -> x + Z.of_nat (length vs) <= p + extent b ->
  write_bytes debug x vs m = mkMem (m_blocks m) (m_chunks m) (fills x vs (m_bytes m)).
Proof.
  induction vs as [|v vs IH]; intros m x I G L U; [now destruct m|].
  cbn [write_bytes fills]. cbn [length] in U. rewrite (write_byte_frame m p b x v I G) by lia.
  rewrite IH; [reflexivity|now apply minv_bytes|exact G|lia|lia].
Qed.

Lemma fills_other : forall vs p f x, (x < p \/ p + Z.of_nat (length vs) <= x) -> fills p vs f x = f x.
Proof.
  induction vs as [|v vs IH]; intros p f x H; [reflexivity|]. cbn [fills]. cbn [length] in H.
  rewrite IH by lia. unfold fill. destruct (Z.leb_spec p x), (Z.ltb_spec x (p + 1)); cbn; try reflexivity; lia.
Qed.
Lemma fill_other a n v f x : (x < a \/ a + n <= x) -> fill a n v f x = f x.
Proof. intros H. unfold fill. destruct (Z.leb_spec a x), (Z.ltb_spec x (a + n)); cbn; try reflexivity; lia. Qed.

Lemma read_ext : forall n (m m' : memory) p,
  (forall x, p <= x < p + Z.of_nat n -> m_bytes m x = m_bytes m' x) -> read_bytes m p n = read_bytes m' p n.
Proof.
  induction n as [|n IH]; intros m m' p H; [reflexivity|]. cbn. rewrite (H p) by lia. f_equal.
  apply IH. intros x R. apply H. lia.
Qed.
Lemma read_fills : forall vs bl cl p f, read_bytes (mkMem bl cl (fills p vs f)) p (length vs) = vs.
Proof.
  induction vs as [|v vs IH]; intros bl cl p f; [reflexivity|]. cbn [length read_bytes m_bytes fills].
  rewrite fills_other by lia. unfold fill at 1.
  destruct (Z.leb_spec p p), (Z.ltb_spec p (p + 1)); try lia. cbn [andb]. f_equal. apply IH.
Qed.
Lemma read_len m p n : length (read_bytes m p n) = n.
Proof. revert p. induction n as [|n IH]; intros p; [reflexivity|]. cbn. now rewrite IH. Qed.
Lemma read_fill1 : forall n bl cl f p k v, 0 <= k < Z.of_nat n ->
  read_bytes (mkMem bl cl (fill (p + k) 1 v f)) p n = set_nth (Z.to_nat k) v (read_bytes (mkMem bl cl f) p n).
Proof.
  induction n as [|n IH]; intros bl cl f p k v R; [lia|].
  destruct (Z.eq_dec k 0) as [->|N].
  - cbn [read_bytes m_bytes Z.to_nat set_nth]. replace (p + 0) with p by lia. change (Z.to_nat 0) with O. cbn [set_nth]. f_equal.
    + unfold fill. destruct (Z.leb_spec p p), (Z.ltb_spec p (p + 1)); cbn; try reflexivity; lia.
    + apply read_ext. intros x Rx. cbn. apply fill_other. lia.
  - replace (Z.to_nat k) with (S (Z.to_nat (k - 1))) by lia. cbn [read_bytes m_bytes set_nth]. f_equal.
    + apply fill_other. lia.
    + replace (p + k) with (p + 1 + (k - 1)) by lia. apply IH. lia.
Qed.

(** ** The free list *)
Fixpoint chain (m : fmap Z block) (p : Z) (l : list Z) : Prop :=
  match l with
  | [] => p = 0
  | q :: l => p = q /\ q <> 0 /\ exists b, get q m = Some b /\ chain m (b_next b) l
  end.

Lemma chain_ext m m' : forall l p, (forall q, In q l -> get q m = get q m') -> chain m p l -> chain m' p l.
Proof.
  induction l as [|q l IH]; intros p H C; [exact C|]. destruct C as (E & N & b & G & C).
  split; [exact E|]. split; [exact N|]. exists b. split; [rewrite <- H; [exact G|now left]|].
  apply IH; [|exact C]. intros r R. apply H. now right.
Qed.
Lemma chain_in m : forall l p q, chain m p l -> In q l -> q <> 0 /\ exists b, get q m = Some b.
Proof.
  induction l as [|r l IH]; intros p q C I; [destruct I|]. destruct C as (E & N & b & G & C).
  destruct I as [<-|I]; [split; [exact N|now exists b]|]. eapply IH; eassumption.
Qed.

Lemma chain_app m : forall l1 l2 p, chain m p (l1 ++ l2) ->
  exists q, chain m q l2 /\ (l1 = [] -> q = p) /\
    (forall pre r, l1 = pre ++ [r] -> exists b, get r m = Some b /\ b_next b = q).
Proof.
  induction l1 as [|x l1 IH]; intros l2 p C.
  - exists p. split; [exact C|]. split; [reflexivity|]. intros pre r E. destruct pre; discriminate.
  - destruct C as (E & N & b & G & C). destruct (IH _ _ C) as (q & Cq & Enil & Elast).
    exists q. split; [exact Cq|]. split; [discriminate|]. intros pre r Er.
    destruct pre as [|y pre]; cbn in Er; injection Er as <- Er.
    + exists b. split; [exact G|]. symmetry. now apply Enil.
    + now apply (Elast pre).
Qed.

Lemma last_cons {A} (x : A) : forall l d, last (x :: l) d = last l x.
Proof.
  intros l. revert x. induction l as [|y l IH]; intros x d; [reflexivity|].
  change (last (x :: y :: l) d) with (last (y :: l) d). rewrite !IH. reflexivity.
Qed.

(** Walking the list: the first block of the right size and alignment. *)
Lemma walk_ok m n a : forall l fuel pred p, chain (m_blocks m) p l -> (length l <= fuel)%nat ->
  (exists pred', check_free_list fuel m pred p n a = Some (pred', 0)
     /\ forall q b, In q l -> get q (m_blocks m) = Some b ->
        (b_nbytes b =? n) && (align_offset (q + b_off b) a =? 0) = false) \/
  (exists l1 q l2 b, l = l1 ++ q :: l2 /\ get q (m_blocks m) = Some b /\ b_nbytes b = n
     /\ align_offset (q + b_off b) a = 0
     /\ (forall q' b', In q' l1 -> get q' (m_blocks m) = Some b' ->
        (b_nbytes b' =? n) && (align_offset (q' + b_off b') a =? 0) = false)
     /\ check_free_list fuel m pred p n a = Some (last l1 pred, q)).
Proof.
  induction l as [|x l IH]; intros fuel pred p C F.
  - cbn in C. subst p. left. exists pred. split; [now destruct fuel|]. intros q b I. destruct I.
  - destruct C as (-> & N & b & G & C). destruct fuel as [|fuel]; [cbn in F; lia|].
    cbn [check_free_list]. destruct (Z.eqb_spec x 0) as [E|_]; [contradiction|].
    unfold get_block_data_range. rewrite G. ob. cbn [fst].
    destruct ((b_nbytes b =? n) && (align_offset (x + b_off b) a =? 0)) eqn:T.
    + right. exists [], x, l, b. repeat split; try reflexivity; try assumption.
      * apply andb_true_iff in T. lia.
      * apply andb_true_iff in T. lia.
      * intros q' b' I. destruct I.
    + destruct (IH fuel x (b_next b) C) as [(pr & E & A)|(l1 & q & l2 & b2 & -> & G2 & Nb & Al & Pre & E)];
        [cbn in F; lia| |].
      * left. exists pr. split; [exact E|]. intros q b' [<-|I] G'; [congruence|now apply (A q)].
      * right. exists (x :: l1), q, l2, b2. repeat split; try assumption; try reflexivity.
        -- intros q' b' [<-|I] G'; [congruence|now apply (Pre q')].
        -- rewrite E. f_equal. f_equal. symmetry. apply last_cons.
Qed.

(** ** The allocator *)
Definition live_block (m : memory) (h : handle) : Prop :=
  exists b, get (h_block h) (m_blocks m) = Some b /\ b_nbytes b = h_size h
    /\ align_offset (h_block h + b_off b) (h_align h) = 0.

Record finv (f : falloc) (fl : list Z) : Prop := mkFinv {
  fi_mem : minv (fa_mem f);
  fi_first : In (fa_first f) (keys (m_chunks (fa_mem f)));
  fi_nbytes : fa_nbytes f = CHUNK_NBYTES;
  fi_nd : NoDup fl;
  fi_chain : chain (m_blocks (fa_mem f)) (fa_free f) fl }.

Lemma chain_fuel f fl : finv f fl -> (length fl <= S (length (m_blocks (fa_mem f))))%nat.
Proof.
  intros I. enough (length fl <= length (keys (m_blocks (fa_mem f))))%nat by (unfold keys in *; rewrite map_length in *; lia).
  apply NoDup_incl_length; [apply (fi_nd f fl I)|]. intros q Iq.
  destruct (chain_in _ _ _ _ (fi_chain f fl I) Iq) as (_ & b & G). eapply get_keys, G.
Qed.

(** An update of a block header that keeps its size keeps the layout. *)
Lemma minv_set_block m p b nx : minv m -> get p (m_blocks m) = Some b ->
  minv (set_block p (mkBlock nx (b_nbytes b) (b_off b)) m).
Proof.
  intros I G.
  assert (K : forall q b', get q (m_blocks (set_block p (mkBlock nx (b_nbytes b) (b_off b)) m)) = Some b' ->
    exists b0, get q (m_blocks m) = Some b0 /\ b_nbytes b0 = b_nbytes b' /\ b_off b0 = b_off b').
  { intros q b' E. cbn [set_block m_blocks] in E. rewrite get_put in E. destruct (eqb_ok q p) as [->|N].
    - injection E as <-. now exists b.
    - now exists b'. }
  constructor.
  - cbn. apply (nodup_put p (mkBlock nx (b_nbytes b) (b_off b))), (mi_ndb m I).
  - apply (mi_ndc m I).
  - apply (mi_chunk m I).
  - apply (mi_cdisj m I).
  - intros q b' E. destruct (K _ _ E) as (b0 & G0 & En & Eo). unfold extent. rewrite <- En, <- Eo. now apply (mi_block m I).
  - intros q b1 q' b2 E1 E2 N. destruct (K _ _ E1) as (b10 & G1 & En1 & Eo1). destruct (K _ _ E2) as (b20 & G2 & En2 & Eo2).
    unfold extent. rewrite <- En1, <- Eo1, <- En2, <- Eo2. now apply (mi_bdisj m I).
Qed.

(** ** Blocks in the first chunk *)
Lemma try_creating m c ch n a : minv m -> get c (m_chunks m) = Some ch -> 0 < n -> 0 < a ->
  (exists bs off, (forall m', m_chunks m' = m_chunks m -> try_creating_block_in_chunk debug m' c n a
      = Some (write_block debug bs (mkBlock 0 n off) m', bs))
    /\ write_block debug bs (mkBlock 0 n off) m
       = mkMem ((bs, mkBlock 0 n off) :: m_blocks m) (m_chunks m) (fill bs BS POISON (m_bytes m))
    /\ c + CH + c_cur ch <= bs /\ BS <= off < BS + a /\ bs + off + n <= c + CHUNK_NBYTES
    /\ align_offset (bs + off) a = 0 /\ bs <= c + CH + c_cur ch + 7
    /\ (c_cur ch = 0 -> bs = c + CH)) \/
  (try_creating_block_in_chunk debug m c n a = Some (m, 0)
    /\ (c_cur ch = 0 -> CHUNK_NBYTES < CH + BS + (a - 1) + n)).
Proof.
  intros I G Hn Ha.
  destruct (mi_chunk m I _ _ G) as (Pc & C8 & Nb & Cu).
  set (ds0 := c + CH + c_cur ch). set (bs := ds0 + align_offset ds0 BLOCK_STRUCT_ALIGNMENT).
  set (dst := bs + BS + align_offset (bs + BS) a).
  assert (Form : forall m', m_chunks m' = m_chunks m -> try_creating_block_in_chunk debug m' c n a =
    check (0 <? dst - bs);
    if dst + n <=? c + CHUNK_NBYTES then Some (write_block debug bs (mkBlock 0 (u32 n) (u32 (dst - bs))) m', bs)
    else Some (m', 0)).
  { intros m' Em. unfold try_creating_block_in_chunk. rewrite Em, G. ob. rewrite Nb. reflexivity. }
  pose proof (align_offset_range ds0 BLOCK_STRUCT_ALIGNMENT ltac:(reflexivity)) as R1.
  pose proof (align_offset_range (bs + BS) a Ha) as R2. pose proof BS_pos as PB. pose proof CH_pos as PC.
  assert (C0 : c_cur ch = 0 -> bs = c + CH).
  { intros Z0. unfold bs, ds0 in *. rewrite Z0, Z.add_0_r in *.
    rewrite align_offset_zero; [lia|reflexivity|].
    unfold BLOCK_STRUCT_ALIGNMENT. destruct (hdr_sizes debug) as (_ & _ & E8 & _). clear - C8 E8.
    rewrite Z.add_mod, C8, E8 by lia. reflexivity. }
  change (0 <= align_offset ds0 BLOCK_STRUCT_ALIGNMENT < 8) in R1.
  assert (Lbs : c + CH + c_cur ch <= bs <= c + CH + c_cur ch + 7) by (unfold bs, ds0 in *; lia).
  assert (Lds : bs + BS <= dst < bs + BS + a) by (unfold dst in *; lia).
  assert (Ald : align_offset dst a = 0) by (unfold dst; now apply align_offset_aligned).
  clearbody dst. clear R2. clearbody bs. clear R1. subst ds0.
  destruct (Z.leb_spec (dst + n) (c + CHUNK_NBYTES)) as [Fit|Nofit].
  - left. exists bs, (dst - bs).
    assert (U1 : u32 n = n) by (unfold u32; rewrite Z.mod_small; [reflexivity|rewrite chunk_nbytes in *; lia]).
    assert (U2 : u32 (dst - bs) = dst - bs) by (unfold u32; rewrite Z.mod_small; [reflexivity|rewrite chunk_nbytes in *; lia]).
    split; [|split].
    + intros m' Em. rewrite (Form m' Em). rewrite assert_true by (lia). now rewrite U1, U2.
    + unfold write_block. rewrite clobber_blocks_id.
      * rewrite clobber_chunks_id; [reflexivity|].
        apply (range_apart_chunks m bs BS c ch I G); lia.
      * intros q Iq. destruct (keys_get _ _ Iq) as [b Gb]. destruct (mi_block m I _ _ Gb) as (O & P & c' & ch' & Gc & L & U).
        unfold apart. destruct (Z.eq_dec c' c) as [->|N].
        -- rewrite G in Gc. injection Gc as <-. right. unfold extent in U. lia.
        -- pose proof (mi_cdisj m I c' c (get_keys _ _ _ Gc) (get_keys _ _ _ G) N) as D. unfold apart in D.
           destruct (mi_chunk m I _ _ Gc) as (_ & _ & _ & Cu'). unfold extent in *. lia.
    + replace (bs + (dst - bs)) with dst by lia.
      repeat split; try (lia); try assumption.
  - right. split.
    + rewrite (Form m eq_refl). rewrite assert_true by (lia). reflexivity.
    + intros Z0. specialize (C0 Z0). lia.
Qed.

(** The new block, with its chunk's data_cur moved past it. *)
Lemma minv_new_block m c ch n bs off f : minv m -> get c (m_chunks m) = Some ch -> 0 < n ->
  c + CH + c_cur ch <= bs -> BS <= off -> bs + off + n <= c + CHUNK_NBYTES ->
  minv (mkMem ((bs, mkBlock 0 n off) :: m_blocks m)
              (put c (mkChunk (c_name ch) (c_nbytes ch) (bs + off + n - c) (c_next ch)) (m_chunks m)) f).
Proof.
  intros I G Hn Lb Lo Ub. pose proof BS_pos as PB. pose proof CH_pos as PC.
  destruct (mi_chunk m I _ _ G) as (Pc & C8 & Nb & Cu).
  assert (Far : forall q b, get q (m_blocks m) = Some b -> apart bs (off + n) q (extent b)).
  { intros q b Gb. destruct (mi_block m I _ _ Gb) as (O & P & c' & ch' & Gc & L & U).
    unfold apart. destruct (Z.eq_dec c' c) as [->|N].
    - rewrite G in Gc. injection Gc as <-. lia.
    - pose proof (mi_cdisj m I c' c (get_keys _ _ _ Gc) (get_keys _ _ _ G) N) as D. unfold apart in D.
      destruct (mi_chunk m I _ _ Gc) as (_ & _ & _ & Cu'). unfold extent in *. lia. }
  assert (New : ~ In bs (keys (m_blocks m))).
  { intros Iq. destruct (keys_get _ _ Iq) as [b Gb]. pose proof (Far _ _ Gb) as D. unfold apart, extent in D.
    destruct (mi_block m I _ _ Gb) as (O & P & _). lia. }
  assert (KC : forall q, In q (keys (put c (mkChunk (c_name ch) (c_nbytes ch) (bs + off + n - c) (c_next ch)) (m_chunks m))) <-> In q (keys (m_chunks m))).
  { intros q. rewrite keys_put. split; [intros [->|Iq]; [eapply get_keys, G|exact Iq]|now right]. }
  constructor; cbn [m_blocks m_chunks m_bytes].
  - cbn. constructor; [exact New|apply (mi_ndb m I)].
  - apply nodup_put, (mi_ndc m I).
  - intros c' ch' E. rewrite get_put in E. destruct (eqb_ok c' c) as [->|N].
    + injection E as <-. cbn. repeat split; try assumption; lia.
    + now apply (mi_chunk m I).
  - intros c1 c2 I1 I2. apply (mi_cdisj m I); now apply KC.
  - intros q b E. rewrite get_cons in E. destruct (eqb_ok q bs) as [->|N].
    + injection E as <-. cbn [b_off b_nbytes]. split; [lia|]. split; [lia|].
      exists c, (mkChunk (c_name ch) (c_nbytes ch) (bs + off + n - c) (c_next ch)).
      split; [apply get_put_same|]. unfold extent. cbn [b_off b_nbytes c_cur]. lia.
    + destruct (mi_block m I _ _ E) as (O & P & c' & ch' & Gc & L & U). repeat split; try assumption.
      destruct (Z.eq_dec c' c) as [->|Nc].
      * rewrite G in Gc. injection Gc as <-. eexists c, _. split; [apply get_put_same|]. cbn [c_cur]. lia.
      * exists c', ch'. split; [rewrite get_put_other by congruence; exact Gc|]. lia.
  - intros q b q' b' E E' N. rewrite get_cons in E, E'. destruct (eqb_ok q bs) as [->|N1], (eqb_ok q' bs) as [->|N2].
    + contradiction.
    + injection E as <-. unfold extent at 1. cbn [b_off b_nbytes]. now apply Far.
    + injection E' as <-. pose proof (Far _ _ E) as D. unfold apart, extent in *. cbn. lia.
    + now apply (mi_bdisj m I q b q' b').
Qed.

(** Adding a chunk. *)
Lemma add_chunk_ok f fl o : finv f fl -> 0 < o_base o -> o_base o mod 4096 = 0 ->
  (forall c, In c (keys (m_chunks (fa_mem f))) -> apart c CHUNK_NBYTES (o_base o) CHUNK_NBYTES) ->
  exists g, (forall x, x < o_base o \/ o_base o + CHUNK_NBYTES <= x -> g x = m_bytes (fa_mem f) x) /\
  add_chunk debug o f = mkFalloc (mkMem (m_blocks (fa_mem f))
       ((o_base o, mkChunk (o_name o) CHUNK_NBYTES 0 (fa_first f)) :: m_chunks (fa_mem f)) g)
       (o_base o) (fa_free f) CHUNK_NBYTES
  /\ finv (add_chunk debug o f) fl.
Proof.
  intros I P A D. destruct I as [M Fi Nb Nd C]. pose proof CH_pos as PC. pose proof BS_pos as PB.
  assert (CHs : CH <= CHUNK_NBYTES) by (rewrite chunk_nbytes; pose proof (hdr_sizes debug); lia).
  unfold add_chunk, write_chunk. cbn [m_blocks m_chunks m_bytes]. rewrite Nb.
  rewrite clobber_blocks_id.
  2:{ intros q Iq. destruct (keys_get _ _ Iq) as [b Gb]. destruct (mi_block _ M _ _ Gb) as (O & Pb & c & ch & Gc & L & U).
      destruct (mi_chunk _ M _ _ Gc) as (_ & _ & _ & Cu).
      pose proof (D c (get_keys _ _ _ Gc)) as Dc. unfold apart, extent in *. lia. }
  rewrite clobber_chunks_id.
  2:{ intros q Iq. pose proof (D q Iq) as Dc. unfold apart in *. lia. }
  assert (New : ~ In (o_base o) (keys (m_chunks (fa_mem f)))).
  { intros Iq. pose proof (D _ Iq) as Dc. unfold apart in Dc. rewrite chunk_nbytes in Dc. lia. }
  eexists. split; [|split; [reflexivity|]].
  - intros x Hx. rewrite !fill_other by lia. reflexivity.
  - constructor; cbn [fa_mem fa_first fa_nbytes fa_free m_chunks m_blocks].
    + constructor; cbn [m_blocks m_chunks].
      * apply (mi_ndb _ M).
      * cbn. constructor; [exact New|apply (mi_ndc _ M)].
      * intros c ch E. rewrite get_cons in E. destruct (eqb_ok c (o_base o)) as [->|N].
        -- injection E as <-. cbn. repeat split; try lia; try (rewrite chunk_nbytes; lia).
        -- now apply (mi_chunk _ M).
      * intros c c' Ic Ic' N. cbn in Ic, Ic'. destruct Ic as [<-|Ic], Ic' as [<-|Ic'].
        -- contradiction.
        -- pose proof (D _ Ic') as Dc. unfold apart in *. lia.
        -- now apply D.
        -- now apply (mi_cdisj _ M).
      * intros p b E. destruct (mi_block _ M _ _ E) as (O & Pb & c & ch & Gc & L & U). repeat split; try assumption.
        exists c, ch. split; [|lia]. rewrite get_cons. destruct (eqb_ok c (o_base o)) as [->|N]; [|exact Gc].
        exfalso. apply New. eapply get_keys, Gc.
      * apply (mi_bdisj _ M).
    + cbn. now left.
    + reflexivity.
    + exact Nd.
    + exact C.
Qed.

Definition same_shape (m m' : memory) : Prop :=
  forall p b, get p (m_blocks m) = Some b ->
    exists b', get p (m_blocks m') = Some b' /\ b_nbytes b' = b_nbytes b /\ b_off b' = b_off b.

Lemma same_shape_refl m : same_shape m m.
Proof. intros p b G. now exists b. Qed.
Lemma same_shape_trans m1 m2 m3 : same_shape m1 m2 -> same_shape m2 m3 -> same_shape m1 m3.
Proof.
  intros H1 H2 p b G. destruct (H1 _ _ G) as (b' & G' & E1 & E2). destruct (H2 _ _ G') as (b2 & G2 & E3 & E4).
  exists b2. split; [exact G2|]. split; congruence.
Qed.
Lemma same_shape_set m p b nx : get p (m_blocks m) = Some b ->
  same_shape m (set_block p (mkBlock nx (b_nbytes b) (b_off b)) m).
Proof.
  intros G q b' G'. cbn [set_block m_blocks]. rewrite get_put. destruct (eqb_ok q p) as [->|N].
  - rewrite G in G'. injection G' as <-. eexists. split; [reflexivity|]. cbn. auto.
  - now exists b'.
Qed.

Definition fresh_for (o : oracle) (f : falloc) : Prop :=
  0 < o_base o /\ o_base o mod 4096 = 0 /\
  forall c, In c (keys (m_chunks (fa_mem f))) -> apart c CHUNK_NBYTES (o_base o) CHUNK_NBYTES.

(** What an allocation does to the list of chunks: nothing, or one more in front. *)
Definition cmeta (f : falloc) (c : Z) : option (list Z * Z) :=
  match get c (m_chunks (fa_mem f)) with Some ch => Some (c_name ch, c_next ch) | None => None end.
Definition crel (o : oracle) (f f' : falloc) : Prop :=
  (fa_first f' = fa_first f /\ forall c, cmeta f' c = cmeta f c) \/
  (fa_first f' = o_base o /\ cmeta f (o_base o) = None /\
   forall c, cmeta f' c = if c =? o_base o then Some (o_name o, fa_first f) else cmeta f c).

(** The end of [alloc]: lines 546-571. *)
Definition alloc_tail (n a : Z) (f : falloc) : option (falloc * Z) :=
    do mp <- try_creating_block_in_chunk debug (fa_mem f) (fa_first f) n a;
    let '(m, p) := mp in
    do b <- get p (m_blocks m);
    check (0 <? b_off b);
    let block_end := p + b_off b + n in
    do c <- get (fa_first f) (m_chunks m);
    let m := set_chunk (fa_first f) (mkChunk (c_name c) (c_nbytes c) (u32 (block_end - fa_first f)) (c_next c)) m in
    check (negb (p =? 0));
    do r <- get_block_data_range m p;
    check (align_offset (fst r) a =? 0);
    Some (mkFalloc m (fa_first f) (fa_free f) (fa_nbytes f), p).

Lemma alloc_eq o n a f : alloc debug o n a f =
  do pb <- check_free_list (S (length (m_blocks (fa_mem f)))) (fa_mem f) 0 (fa_free f) n a;
  let '(pred, p) := pb in
  if negb (p =? 0) then
    do b <- get p (m_blocks (fa_mem f));
    do s <- (if pred =? 0
             then Some (mkFalloc (fa_mem f) (fa_first f) (b_next b) (fa_nbytes f))
             else do q <- get pred (m_blocks (fa_mem f));
                  Some (mkFalloc (set_block pred (mkBlock (b_next b) (b_nbytes q) (b_off q)) (fa_mem f))
                                 (fa_first f) (fa_free f) (fa_nbytes f)));
    do r <- get_block_data_range (fa_mem s) p;
    check (align_offset (fst r) a =? 0);
    Some (s, p)
  else
    do mp <- try_creating_block_in_chunk debug (fa_mem f) (fa_first f) n a;
    let s := mkFalloc (fst mp) (fa_first f) (fa_free f) (fa_nbytes f) in
    let s := if snd mp =? 0 then add_chunk debug o s else s in
    alloc_tail n a s.
Proof. reflexivity. Qed.

(** What a fresh block changes. *)
Definition fresh_block (f f' : falloc) (fl : list Z) (n a p : Z) : Prop :=
  exists b, finv f' fl /\ get p (m_blocks (fa_mem f')) = Some b /\ b_nbytes b = n
    /\ align_offset (p + b_off b) a = 0
    /\ same_shape (fa_mem f) (fa_mem f')
    /\ ~ In p (keys (m_blocks (fa_mem f)))
    /\ (forall c, In c (keys (m_chunks (fa_mem f'))) -> In c (keys (m_chunks (fa_mem f))))
    /\ (fa_first f' = fa_first f /\ forall c, cmeta f' c = cmeta f c)
    /\ (forall q bq x, get q (m_blocks (fa_mem f)) = Some bq -> q + b_off bq <= x < q + extent bq ->
          m_bytes (fa_mem f') x = m_bytes (fa_mem f) x).

Lemma tail_ok f fl n a ch bs off m2 : finv f fl -> get (fa_first f) (m_chunks (fa_mem f)) = Some ch ->
  0 < n -> 0 < a ->
  (forall m', m_chunks m' = m_chunks (fa_mem f) -> try_creating_block_in_chunk debug m' (fa_first f) n a
      = Some (write_block debug bs (mkBlock 0 n off) m', bs)) ->
  write_block debug bs (mkBlock 0 n off) (fa_mem f)
    = mkMem ((bs, mkBlock 0 n off) :: m_blocks (fa_mem f)) (m_chunks (fa_mem f)) (fill bs BS POISON (m_bytes (fa_mem f))) ->
  fa_first f + CH + c_cur ch <= bs -> BS <= off < BS + a -> bs + off + n <= fa_first f + CHUNK_NBYTES ->
  align_offset (bs + off) a = 0 ->
  m2 = fa_mem f \/ m2 = write_block debug bs (mkBlock 0 n off) (fa_mem f) ->
  exists f', alloc_tail n a (mkFalloc m2 (fa_first f) (fa_free f) (fa_nbytes f)) = Some (f', bs)
    /\ fresh_block f f' fl n a bs.
Proof.
  intros I G Hn Ha Try W Lb Lo Ub Al M2. pose proof (fi_mem f fl I) as M.
  destruct (mi_chunk _ M _ _ G) as (Pc & C8 & Nb & Cu). pose proof BS_pos as PB. pose proof CH_pos as PC.
  assert (W2 : exists g, write_block debug bs (mkBlock 0 n off) m2
     = mkMem ((bs, mkBlock 0 n off) :: m_blocks (fa_mem f)) (m_chunks (fa_mem f)) g
     /\ forall x, x < bs \/ bs + BS <= x -> g x = m_bytes (fa_mem f) x).
  { destruct M2 as [-> | ->].
    - eexists. split; [exact W|]. intros x Hx. apply fill_other. lia.
    - eexists. split.
      + rewrite W. unfold write_block. cbn [m_blocks m_chunks m_bytes].
        unfold write_block in W. injection W as Wb Wc.
        rewrite Wc. cbn [clobber_blocks filter fst].
        assert (O : overlaps bs BS bs BS = true) by (unfold overlaps; lia).
        rewrite O. cbn [negb]. fold (clobber_blocks debug bs BS (m_blocks (fa_mem f))). rewrite Wb. reflexivity.
      + intros x Hx. rewrite !fill_other by lia. reflexivity. }
  assert (C2 : m_chunks m2 = m_chunks (fa_mem f)) by (destruct M2 as [->| ->]; [reflexivity|rewrite W; reflexivity]).
  destruct W2 as (g & W2 & Gg).
  unfold alloc_tail. cbn [fa_mem fa_first fa_free fa_nbytes]. rewrite (Try m2 C2). ob. rewrite W2.
  cbn [m_blocks m_chunks m_bytes].
  assert (G0 : get bs ((bs, mkBlock 0 n off) :: m_blocks (fa_mem f)) = Some (mkBlock 0 n off)).
  { rewrite get_cons. destruct (eqb_ok bs bs); [reflexivity|contradiction]. }
  rewrite G0, G. ob. cbn [b_off b_nbytes].
  rewrite assert_true by lia. rewrite assert_true by lia.
  unfold get_block_data_range. cbn [set_chunk m_blocks m_chunks]. rewrite G0. ob. cbn [fst b_off].
  rewrite assert_true by lia.
  assert (U : u32 (bs + off + n - fa_first f) = bs + off + n - fa_first f).
  { unfold u32. apply Z.mod_small. rewrite chunk_nbytes in *. lia. }
  rewrite U. eexists. split; [reflexivity|]. unfold fresh_block. cbn [fa_mem fa_first fa_free fa_nbytes set_chunk m_blocks m_chunks m_bytes].
  pose proof (minv_new_block (fa_mem f) (fa_first f) ch n bs off g M G Hn Lb (proj1 Lo) Ub) as M'.
  exists (mkBlock 0 n off).
  assert (New : ~ In bs (keys (m_blocks (fa_mem f)))).
  { pose proof (mi_ndb _ M') as ND. cbn in ND. now inversion ND. }
  assert (Oth : forall q b, get q (m_blocks (fa_mem f)) = Some b -> get q ((bs, mkBlock 0 n off) :: m_blocks (fa_mem f)) = Some b).
  { intros q b Gb. rewrite get_cons. destruct (eqb_ok q bs) as [->|N]; [|exact Gb]. exfalso. apply New. eapply get_keys, Gb. }
  split; [|split; [exact G0|split; [reflexivity|split; [exact Al|split; [|split; [exact New|split; [|split]]]]]]].
  - constructor; cbn [fa_mem fa_first fa_free fa_nbytes].
    + exact M'.
    + cbn [m_chunks]. eapply get_keys, get_put_same.
    + apply (fi_nbytes f fl I).
    + apply (fi_nd f fl I).
    + cbn [m_blocks]. eapply chain_ext; [|apply (fi_chain f fl I)]. intros q Iq.
      destruct (chain_in _ _ _ _ (fi_chain f fl I) Iq) as (_ & b & Gb). rewrite Gb. symmetry. now apply Oth.
  - intros q b Gb. exists b. split; [now apply Oth|auto].
  - intros c Ic. apply keys_put in Ic. destruct Ic as [->|Ic]; [eapply get_keys, G|exact Ic].
  - split; [reflexivity|]. intros c. unfold cmeta. cbn [fa_mem m_chunks set_chunk]. rewrite get_put.
    destruct (eqb_ok c (fa_first f)) as [->|N]; [rewrite G; reflexivity|reflexivity].
  - intros q bq x Gq Rx. apply Gg.
    assert (Nq : q <> bs) by (intros ->; apply New; eapply get_keys, Gq).
    pose proof (mi_bdisj _ M' q bq bs (mkBlock 0 n off)) as D. cbn [m_blocks] in D.
    specialize (D (Oth _ _ Gq) G0 Nq). destruct (mi_block _ M _ _ Gq) as (O & P & _).
    unfold apart, extent in *. cbn [b_off b_nbytes] in D. lia.
Qed.

(** What an allocation does. *)
Lemma alloc_ok f fl o n a : finv f fl -> fresh_for o f -> 0 < n -> 0 < a ->
  CH + BS + (a - 1) + n <= CHUNK_NBYTES ->
  exists f' p b fl', alloc debug o n a f = Some (f', p) /\ finv f' fl'
    /\ get p (m_blocks (fa_mem f')) = Some b /\ b_nbytes b = n /\ align_offset (p + b_off b) a = 0
    /\ same_shape (fa_mem f) (fa_mem f')
    /\ ~ In p fl'
    /\ (forall q, In q fl' -> In q fl)
    /\ (In p fl \/ ~ In p (keys (m_blocks (fa_mem f))))
    /\ (forall c, In c (keys (m_chunks (fa_mem f'))) -> In c (keys (m_chunks (fa_mem f))) \/ c = o_base o)
    /\ (forall q bq x, get q (m_blocks (fa_mem f)) = Some bq -> q + b_off bq <= x < q + extent bq ->
          m_bytes (fa_mem f') x = m_bytes (fa_mem f) x)
    /\ (forall q l bq, fl = q :: l -> get q (m_blocks (fa_mem f)) = Some bq -> b_nbytes bq = n ->
          align_offset (q + b_off bq) a = 0 -> p = q)
    /\ crel o f f'.
Proof.
  intros I (Po & Ao & Do) Hn Ha Fit. rewrite alloc_eq. pose proof (fi_mem f fl I) as M.
  destruct (walk_ok (fa_mem f) n a fl _ 0 (fa_free f) (fi_chain f fl I) (chain_fuel f fl I))
    as [(pr & E & None_fit)|(l1 & q & l2 & b & Efl & G & Nb & Al & Pre & E)]; rewrite E; ob; cbv iota beta.
  - (* nothing suitable in the free list *)
    change (negb (0 =? 0)) with false. cbv iota.
    destruct (keys_get _ _ (fi_first f fl I)) as [ch G].
    destruct (try_creating (fa_mem f) (fa_first f) ch n a M G Hn Ha)
      as [(bs & off & Try & W & Lb & Lo & Ub & Al & _)|(Try & Full)].
    + rewrite (Try (fa_mem f) eq_refl). ob. cbn [fst snd].
      assert (Pb : 0 < bs) by (pose proof CH_pos; destruct (mi_chunk _ M _ _ G) as (Pc & _ & _ & Cu); lia).
      destruct (Z.eqb_spec bs 0) as [Eb|_]; [lia|]. cbv zeta iota.
      destruct (tail_ok f fl n a ch bs off (write_block debug bs (mkBlock 0 n off) (fa_mem f)) I G Hn Ha Try W Lb Lo Ub Al (or_intror eq_refl))
        as (f' & Ef & b & I' & Gb & Nb & Al' & Sh & New & Cs & Cm & By).
      exists f', bs, b, fl. split; [exact Ef|].
      assert (Nfl : ~ In bs fl).
      { intros Ib. destruct (chain_in _ _ _ _ (fi_chain f fl I) Ib) as (_ & b0 & G0). apply New. eapply get_keys, G0. }
      do 5 (split; [assumption|]). split; [exact Nfl|]. split; [auto|]. split; [now right|]. split; [intros c Ic; left; now apply Cs|].
      split; [exact By|]. split; [|left; exact Cm]. intros q l bq -> Gq Nq Aq. exfalso.
      pose proof (None_fit q bq (or_introl eq_refl) Gq) as F. rewrite Nq, Aq in F.
      rewrite Z.eqb_refl in F. discriminate F.
    + rewrite Try. ob. cbn [fst snd]. change (0 =? 0) with true. cbv zeta iota.
      assert (If : mkFalloc (fa_mem f) (fa_first f) (fa_free f) (fa_nbytes f) = f) by now destruct f.
      rewrite If. destruct (add_chunk_ok f fl o I Po Ao Do) as (g & Gg & Ea & Ia).
      set (fa := add_chunk debug o f) in *.
      assert (Ga : get (fa_first fa) (m_chunks (fa_mem fa)) = Some (mkChunk (o_name o) CHUNK_NBYTES 0 (fa_first f))).
      { rewrite Ea. cbn [fa_mem fa_first m_chunks]. rewrite get_cons. destruct (eqb_ok (o_base o) (o_base o)); [reflexivity|contradiction]. }
      destruct (try_creating (fa_mem fa) (fa_first fa) _ n a (fi_mem fa fl Ia) Ga Hn Ha)
        as [(bs & off & Try2 & W & Lb & Lo & Ub & Al & _)|(_ & Full2)].
      2:{ specialize (Full2 eq_refl). lia. }
      destruct (tail_ok fa fl n a _ bs off (fa_mem fa) Ia Ga Hn Ha Try2 W Lb Lo Ub Al (or_introl eq_refl))
        as (f' & Ef & b & I' & Gb & Nb & Al' & Sh & New & Cs & Cm & By).
      assert (If2 : mkFalloc (fa_mem fa) (fa_first fa) (fa_free fa) (fa_nbytes fa) = fa) by now destruct fa.
      rewrite If2 in Ef.
      assert (Bl : m_blocks (fa_mem fa) = m_blocks (fa_mem f)) by (rewrite Ea; reflexivity).
      exists f', bs, b, fl. split; [exact Ef|]. rewrite Bl in New.
      assert (Nfl : ~ In bs fl).
      { intros Ib. destruct (chain_in _ _ _ _ (fi_chain f fl I) Ib) as (_ & b0 & G0). apply New. eapply get_keys, G0. }
      split; [exact I'|]. split; [exact Gb|]. split; [exact Nb|]. split; [exact Al'|].
      split; [intros p b0 G0; apply Sh; now rewrite Bl|]. split; [exact Nfl|]. split; [auto|].
      split; [now right|]. split.
      { intros c Ic. apply Cs in Ic. rewrite Ea in Ic. cbn in Ic. destruct Ic as [<-|Ic]; [now right|now left]. }
      split.
      { intros q bq x Gq Rx. rewrite (By q bq x); [|now rewrite Bl|exact Rx]. rewrite Ea. cbn [fa_mem m_bytes]. apply Gg.
        destruct (mi_block _ M _ _ Gq) as (O & P & c & chq & Gc & L & U).
        destruct (mi_chunk _ M _ _ Gc) as (_ & _ & _ & Cu). pose proof (Do c (get_keys _ _ _ Gc)) as D.
        pose proof BS_pos. pose proof CH_pos. unfold apart, extent in *. lia. }
      split.
      { intros q l bq -> Gq Nq Aq. exfalso.
        pose proof (None_fit q bq (or_introl eq_refl) Gq) as F. rewrite Nq, Aq in F.
        rewrite Z.eqb_refl in F. discriminate F. }
      destruct Cm as (Cf & Cm). right. rewrite Cf, Ea. split; [reflexivity|]. split.
      { unfold cmeta. destruct (get (o_base o) (m_chunks (fa_mem f))) as [c0|] eqn:G0; [|reflexivity].
        pose proof (Do _ (get_keys _ _ _ G0)) as X. unfold apart in X. rewrite chunk_nbytes in X. lia. }
      intros c. rewrite Cm, Ea. unfold cmeta. cbn [fa_mem m_chunks]. rewrite get_cons. cbn.
      destruct (Z.eqb_spec c (o_base o)) as [->|N]; reflexivity.
  - (* a block of the free list *)
    pose proof (chain_in _ _ _ q (fi_chain f fl I)) as Cq. rewrite Efl in Cq.
    destruct (Cq ltac:(apply in_elt)) as (Nq & _).
    destruct (Z.eqb_spec q 0) as [Eq|_]; [contradiction|]. cbn [negb]. cbv iota. rewrite G. ob.
    pose proof (fi_chain f fl I) as C. rewrite Efl in C. pose proof (fi_nd f fl I) as ND. rewrite Efl in ND.
    destruct (chain_app _ _ _ _ C) as (q' & (-> & _ & b0 & G0 & Cn) & Enil & Elast).
    rewrite G in G0. injection G0 as <-.
    assert (Nq12 : ~ In q (l1 ++ l2)) by (now apply NoDup_remove_2 in ND).
    assert (ND' : NoDup (l1 ++ l2)) by (now apply NoDup_remove_1 in ND).
    destruct l1 as [|x l1] using rev_ind.
    + cbn [last]. change (0 =? 0) with true. cbv iota. ob. unfold get_block_data_range. cbn [fa_mem]. rewrite G. ob.
      cbn [fst]. rewrite assert_true by lia.
      exists (mkFalloc (fa_mem f) (fa_first f) (b_next b) (fa_nbytes f)), q, b, l2. split; [reflexivity|].
      cbn [app] in *. cbn [fa_mem].
      split. { constructor; cbn [fa_mem fa_first fa_free fa_nbytes]; try assumption; [apply (fi_first f fl I)|apply (fi_nbytes f fl I)]. }
      split; [exact G|]. split; [exact Nb|]. split; [exact Al|]. split; [apply same_shape_refl|]. split; [exact Nq12|].
      split; [intros r Ir; rewrite Efl; now right|]. split; [left; rewrite Efl; now left|]. split; [auto|]. split; [auto|].
      split; [|left; split; reflexivity]. intros r l br Er. rewrite Efl in Er. now injection Er as <- _.
    + clear IHl1. rewrite last_last.
      destruct (Elast l1 x eq_refl) as (bx & Gx & Ex).
      pose proof (chain_in _ _ _ x C) as Cx. destruct (Cx ltac:(rewrite !in_app_iff; left; right; now left)) as (Nx & _).
      destruct (Z.eqb_spec x 0) as [Exx|_]; [contradiction|]. rewrite Gx. ob.
      assert (Nxq : x <> q) by (intros ->; apply Nq12; rewrite !in_app_iff; left; right; now left).
      unfold get_block_data_range. cbn [fa_mem set_block m_blocks]. rewrite get_put_other by congruence. rewrite G. ob.
      cbn [fst]. rewrite assert_true by lia.
      exists (mkFalloc (set_block x (mkBlock (b_next b) (b_nbytes bx) (b_off bx)) (fa_mem f)) (fa_first f) (fa_free f) (fa_nbytes f)), q, b, ((l1 ++ [x]) ++ l2).
      split; [reflexivity|]. cbn [fa_mem].
      split. { constructor; cbn [fa_mem fa_first fa_free fa_nbytes]; try assumption; [apply minv_set_block; assumption|apply (fi_first f fl I)|apply (fi_nbytes f fl I)|].
        clear - C Cn G Gx Ex ND' Nq12 Nxq. cbn [set_block m_blocks].
        set (m := m_blocks (fa_mem f)) in *. set (b' := mkBlock (b_next b) (b_nbytes bx) (b_off bx)).
        assert (Cn' : chain (put x b' m) (b_next b) l2).
        { eapply chain_ext; [|exact Cn]. intros r Ir. symmetry. apply get_put_other. intros ->.
          rewrite <- app_assoc in ND'. apply NoDup_remove_2 in ND'. apply ND'. apply in_or_app. now right. }
        assert (Nx1 : ~ In x l1).
        { intros Ix. rewrite <- app_assoc in ND'. apply NoDup_remove_2 in ND'. apply ND'. apply in_or_app. now left. }
        revert C Nx1. generalize (fa_free f) as p. clear ND' Nq12. induction l1 as [|y l1 IH]; intros p C Nx1.
        - cbn in C. destruct C as (-> & N & b0 & G0 & C). cbn [app chain]. split; [reflexivity|]. split; [exact N|].
          exists b'. split; [apply get_put_same|]. exact Cn'.
        - cbn in C. destruct C as (-> & N & b0 & G0 & C). cbn [app chain]. split; [reflexivity|]. split; [exact N|].
          exists b0. split; [rewrite get_put_other; [exact G0|intros ->; apply Nx1; now left]|].
          apply IH; [exact C|]. intros Ix. apply Nx1. now right. }
      split; [cbn [set_block m_blocks]; rewrite get_put_other by congruence; exact G|]. split; [exact Nb|]. split; [exact Al|].
      split; [apply same_shape_set, Gx|]. split; [exact Nq12|].
      split; [intros r Ir; rewrite Efl; rewrite in_app_iff in *; cbn; tauto|].
      split; [left; rewrite Efl; apply in_elt|]. split; [auto|]. split; [auto|].
      split; [|left; split; reflexivity]. intros r l br Er Gr Nr Ar. exfalso.
      assert (Ir : In r (l1 ++ [x])).
      { rewrite Efl in Er. destruct l1 as [|y l1]; injection Er as <- _; [now left|now left]. }
      pose proof (Pre r br Ir Gr) as F. rewrite Nr, Ar in F. rewrite Z.eqb_refl in F. discriminate F.
Qed.

Lemma dealloc_ok f fl p b : finv f fl -> get p (m_blocks (fa_mem f)) = Some b -> ~ In p fl ->
  exists f', dealloc p f = Some f' /\ finv f' (p :: fl) /\ same_shape (fa_mem f) (fa_mem f')
    /\ m_chunks (fa_mem f') = m_chunks (fa_mem f) /\ m_bytes (fa_mem f') = m_bytes (fa_mem f)
    /\ fa_first f' = fa_first f.
Proof.
  intros I G N. pose proof (fi_mem f fl I) as M. pose proof (block_pos _ _ _ M G) as P.
  unfold dealloc. destruct (Z.eqb_spec p 0) as [E|_]; [lia|]. rewrite G. ob.
  eexists. split; [reflexivity|]. cbn [fa_mem].
  split; [|split; [now apply same_shape_set|repeat split; reflexivity]].
  constructor; cbn [fa_mem fa_first fa_free fa_nbytes].
  - now apply minv_set_block.
  - apply (fi_first f fl I).
  - apply (fi_nbytes f fl I).
  - constructor; [exact N|apply (fi_nd f fl I)].
  - cbn [chain]. split; [reflexivity|]. split; [lia|]. eexists. cbn [set_block m_blocks].
    split; [apply get_put_same|]. cbn [b_next]. eapply chain_ext; [|apply (fi_chain f fl I)].
    intros q Iq. symmetry. apply get_put_other. intros ->. contradiction.
Qed.

(** ** The API *)
Definition hget (hs : list (option handle)) (i : nat) : option handle :=
  match nth_error hs i with Some (Some h) => Some h | _ => None end.

(** Handle [h] holds value [v]. *)
Definition holds (m : memory) (fl : list Z) (h : handle) (v : list Z) : Prop :=
  exists b, get (h_block h) (m_blocks m) = Some b /\ b_nbytes b = h_size h
    /\ align_offset (h_block h + b_off b) (h_align h) = 0 /\ 0 < h_align h
    /\ 0 < h_size h /\ ~ In (h_block h) fl
    /\ h_size h = Z.of_nat (length v)
    /\ read_bytes m (h_block h + b_off b) (length v) = v.

Record sinv (s : shm) (fl : list Z) (vs : values) (used lost : list Z) : Prop := mkSinv {
  si_alloc : finv (sh_alloc s) fl;
  si_len : length (sh_handles s) = length vs;
  si_val : forall i, match hget (sh_handles s) i with
                     | Some h => exists v, value_of vs i = Some v /\ holds (fa_mem (sh_alloc s)) fl h v
                     | None => value_of vs i = None
                     end;
  si_dist : forall i j h h', hget (sh_handles s) i = Some h -> hget (sh_handles s) j = Some h' -> i <> j ->
              h_block h <> h_block h';
  si_used : forall c, In c (keys (m_chunks (fa_mem (sh_alloc s)))) -> In c used;
  si_lost : forall p, In p lost -> In p (keys (m_blocks (fa_mem (sh_alloc s)))) /\ ~ In p fl
              /\ forall i h, hget (sh_handles s) i = Some h -> h_block h <> p }.

Lemma hget_at s i : handle_at s i = hget (sh_handles s) i.
Proof. reflexivity. Qed.

Lemma set_nth_len {A} (v : A) : forall l k, length (set_nth k v l) = length l.
Proof. induction l as [|x l IH]; intros [|k]; cbn; auto. Qed.
Lemma nth_set_nth {A} (v : A) : forall l k i,
  nth_error (set_nth k v l) i = if Nat.eqb i k then (match nth_error l k with Some _ => Some v | None => None end) else nth_error l i.
Proof.
  induction l as [|x l IH]; intros [|k] [|i]; cbn; try reflexivity.
  - destruct (Nat.eqb i k); reflexivity.
  - apply IH.
Qed.
Lemma forget_set {A} : forall (l : list (option A)) i, forget i l = set_nth i None l.
Proof. induction l as [|x l IH]; intros [|i]; cbn; try reflexivity. now rewrite IH. Qed.

Lemma hget_forget hs i j : hget (forget i hs) j = if Nat.eqb j i then None else hget hs j.
Proof.
  unfold hget. rewrite forget_set, nth_set_nth. destruct (Nat.eqb_spec j i) as [->|N]; [|reflexivity].
  now destruct (nth_error hs i).
Qed.
Lemma value_set_none vs i j : value_of (set_nth i None vs) j = if Nat.eqb j i then None else value_of vs j.
Proof.
  unfold value_of. rewrite nth_set_nth. destruct (Nat.eqb_spec j i) as [->|N]; [|reflexivity].
  now destruct (nth_error vs i).
Qed.
Lemma hget_snoc hs h j : hget (hs ++ [Some h]) j = if Nat.eqb j (length hs) then Some h else hget hs j.
Proof.
  unfold hget. destruct (Nat.eqb_spec j (length hs)) as [->|N].
  - rewrite nth_error_app2 by lia. now rewrite Nat.sub_diag.
  - destruct (Nat.lt_ge_cases j (length hs)) as [L|G].
    + now rewrite nth_error_app1.
    + rewrite (proj2 (nth_error_None _ _)) by (rewrite app_length; cbn; lia).
      now rewrite (proj2 (nth_error_None _ _)) by lia.
Qed.
Lemma value_snoc vs (v : list Z) j : value_of (vs ++ [Some v]) j = if Nat.eqb j (length vs) then Some v else value_of vs j.
Proof.
  unfold value_of. destruct (Nat.eqb_spec j (length vs)) as [->|N].
  - rewrite nth_error_app2 by lia. now rewrite Nat.sub_diag.
  - destruct (Nat.lt_ge_cases j (length vs)) as [L|G].
    + now rewrite nth_error_app1.
    + rewrite (proj2 (nth_error_None _ _)) by (rewrite app_length; cbn; lia).
      now rewrite (proj2 (nth_error_None _ _)) by lia.
Qed.
Lemma hget_beyond hs i : (length hs <= i)%nat -> hget hs i = None.
Proof. intros H. unfold hget. now rewrite (proj2 (nth_error_None _ _)) by lia. Qed.

Lemma get_ref0_ok m fl h v : holds m fl h v ->
  exists b, get (h_block h) (m_blocks m) = Some b /\ b_nbytes b = h_size h
    /\ get_ref0 m (h_block h) (h_size h) = Some (h_block h + b_off b).
Proof.
  intros (b & G & N & A & PA & P & _). exists b. split; [exact G|]. split; [exact N|].
  unfold get_ref0, get_block_data_range. rewrite G. ob. cbn [fst snd].
  destruct (Z.eqb_spec (h_size h) 0) as [E|_]; [lia|].
  replace (h_block h + b_off b + b_nbytes b - (h_block h + b_off b)) with (h_size h) by lia.
  rewrite assert_true by (rewrite Z.mod_same by lia; reflexivity). cbn [negb]. rewrite assert_true by reflexivity.
  rewrite assert_true by (rewrite Z.div_same by lia; reflexivity). reflexivity.
Qed.

Definition ckept (f f' : falloc) : Prop := fa_first f' = fa_first f /\ forall c, cmeta f' c = cmeta f c.

(** A value is kept when its header keeps its shape and its bytes are not written. *)
Lemma holds_kept m m' fl fl' h v : holds m fl h v -> same_shape m m' -> ~ In (h_block h) fl' ->
  (forall b x, get (h_block h) (m_blocks m) = Some b -> h_block h + b_off b <= x < h_block h + extent b ->
     m_bytes m' x = m_bytes m x) -> holds m' fl' h v.
Proof.
  intros (b & G & N & A & PA & P & _ & L & R) S F B. destruct (S _ _ G) as (b' & G' & N' & O').
  exists b'. rewrite N', O'. repeat split; try assumption.
  rewrite <- R at 2. apply read_ext. intros x Rx. apply (B b x G). unfold extent. lia.
Qed.

Definition op_base (op : shop) : list Z := match op with SMalloc _ _ o => [o_base o] | _ => [] end.
Definition op_lost (s : shm) (op : shop) : list Z :=
  match op with
  | SFree i => match handle_at s i with Some h => [h_block h] | None => [] end
  | _ => []
  end.
Definition op_ok (used : list Z) (op : shop) : Prop :=
  match op with
  | SMalloc val a o => request_ok debug val a /\ 0 < o_base o /\ o_base o mod 4096 = 0
      /\ forall c, In c used -> apart c CHUNK_NBYTES (o_base o) CHUNK_NBYTES
  | _ => True
  end.

Lemma same_shape_keys m m' p : same_shape m m' -> In p (keys (m_blocks m)) -> In p (keys (m_blocks m')).
Proof. intros S I. destruct (keys_get _ _ I) as [b G]. destruct (S _ _ G) as (b' & G' & _). eapply get_keys, G'. Qed.

Lemma malloc_ok s fl vs used lost val a o : sinv s fl vs used lost -> op_ok used (SMalloc val a o) ->
  exists s' h fl', shmalloc debug o val a s = Some (s', h)
    /\ sinv s' fl' (vstep vs (SMalloc val a o)) (used ++ [o_base o]) lost
    /\ same_shape (fa_mem (sh_alloc s)) (fa_mem (sh_alloc s'))
    /\ handle_at s' (length (sh_handles s)) = Some h /\ h_size h = Z.of_nat (length val) /\ h_align h = a
    /\ (forall q l bq, fl = q :: l -> get q (m_blocks (fa_mem (sh_alloc s))) = Some bq ->
          b_nbytes bq = Z.of_nat (length val) -> align_offset (q + b_off bq) a = 0 -> h_block h = q)
    /\ crel o (sh_alloc s) (sh_alloc s').
Proof.
  intros I ((Nv & (k & Pk & Ea) & Fit) & Po & Ao & Do).
  assert (Ha : 0 < a) by (subst a; apply Z.pow_pos_nonneg; lia).
  assert (Hn : 0 < Z.of_nat (length val)) by (destruct val; [contradiction|cbn [length]; lia]).
  assert (Fr : fresh_for o (sh_alloc s)).
  { split; [exact Po|]. split; [exact Ao|]. intros c Ic. apply Do. now apply (si_used _ _ _ _ _ I). }
  destruct (alloc_ok (sh_alloc s) fl o _ a (si_alloc _ _ _ _ _ I) Fr Hn Ha Fit)
    as (f' & p & b & fl' & Ef & If & G & Nb & Al & Sh & Np & Sub & Orig & Cs & By & Reuse & Cr).
  pose proof (fi_mem _ _ If) as M'. destruct (mi_block _ M' _ _ G) as (Ob & _).
  set (n := Z.of_nat (length val)) in *.
  assert (R0 : get_ref0 (fa_mem f') p n = Some (p + b_off b)).
  { unfold get_ref0, get_block_data_range. rewrite G. ob. cbn [fst snd].
    destruct (Z.eqb_spec n 0) as [E|_]; [lia|].
    replace (p + b_off b + b_nbytes b - (p + b_off b)) with n by lia.
    rewrite assert_true by (rewrite Z.mod_same by lia; reflexivity). cbn [negb]. rewrite assert_true by reflexivity.
    rewrite assert_true by (rewrite Z.div_same by lia; reflexivity). reflexivity. }
  unfold shmalloc. fold n. rewrite Ef. ob. rewrite R0. ob.
  rewrite (write_bytes_frame p b val (fa_mem f') (p + b_off b) M' G) by (unfold extent; fold n; lia).
  set (m2 := mkMem (m_blocks (fa_mem f')) (m_chunks (fa_mem f')) (fills (p + b_off b) val (m_bytes (fa_mem f')))).
  assert (Fresh : forall i h, hget (sh_handles s) i = Some h -> h_block h <> p).
  { intros i h Hh E. pose proof (si_val _ _ _ _ _ I i) as V. rewrite Hh in V. destruct V as (v & _ & b0 & G0 & _ & _ & _ & _ & Nf & _).
    rewrite E in G0, Nf. destruct Orig as [Ip|Ip]; [contradiction|]. apply Ip. eapply get_keys, G0. }
  eexists _, _, fl'. split; [reflexivity|]. split; [|split; [exact Sh|split; [|split; [reflexivity|split; [reflexivity|split; [exact Reuse|exact Cr]]]]]].
  2:{ rewrite hget_at. cbn [sh_handles]. rewrite hget_snoc, Nat.eqb_refl. reflexivity. }
  constructor; cbn [sh_alloc sh_handles fa_mem vstep].
  - destruct If as [F1 F2 F3 F4 F5]. constructor; cbn [fa_mem fa_first fa_free fa_nbytes]; try assumption.
    now apply minv_bytes.
  - rewrite !app_length. cbn. now rewrite (si_len _ _ _ _ _ I).
  - intros i. rewrite hget_snoc, value_snoc, (si_len _ _ _ _ _ I).
    destruct (Nat.eqb_spec i (length vs)) as [->|Ni].
    + exists val. split; [reflexivity|]. exists b. cbn [h_block h_size h_align]. repeat split; try assumption; try reflexivity.
      apply read_fills.
    + pose proof (si_val _ _ _ _ _ I i) as V. destruct (hget (sh_handles s) i) as [h|] eqn:Hh; [|exact V].
      destruct V as (v & Ev & Hv). exists v. split; [exact Ev|].
      pose proof (Fresh _ _ Hh) as Nh. eapply holds_kept; [exact Hv|exact Sh| |].
      * intros Ih. apply Sub in Ih. destruct Hv as (b0 & _ & _ & _ & _ & _ & Nf & _). contradiction.
      * intros b0 x G0 Rx. cbn [m2 m_bytes]. rewrite fills_other.
        -- now apply (By (h_block h) b0 x).
        -- destruct (Sh _ _ G0) as (b1 & G1 & N1 & O1).
           pose proof (mi_bdisj _ M' _ _ _ _ G1 G Nh) as D.
           destruct (mi_block _ M' _ _ G1) as (Ob1 & _). pose proof BS_pos. unfold apart, extent in *. fold n. lia.
  - intros i j h h' Hi Hj Nij. rewrite hget_snoc in Hi, Hj.
    destruct (Nat.eqb_spec i (length (sh_handles s))) as [Ei|Ni], (Nat.eqb_spec j (length (sh_handles s))) as [Ej|Nj].
    + congruence.
    + injection Hi as <-. cbn [h_block]. intros E. apply (Fresh _ _ Hj). congruence.
    + injection Hj as <-. cbn [h_block]. now apply (Fresh _ _ Hi).
    + eapply (si_dist _ _ _ _ _ I i j); eassumption.
  - intros c Ic. cbn [m2 m_chunks] in Ic. apply in_or_app. destruct (Cs c Ic) as [Io| ->]; [left; now apply (si_used _ _ _ _ _ I)|right; now left].
  - intros q Iq. destruct (si_lost _ _ _ _ _ I q Iq) as (K & Nf & Nh). cbn [m2 m_blocks].
    split; [now apply (same_shape_keys (fa_mem (sh_alloc s)))|]. split; [intros X; apply Nf; now apply Sub|].
    intros i h Hi. rewrite hget_snoc in Hi. destruct (Nat.eqb_spec i (length (sh_handles s))) as [Ei|Ni].
    + injection Hi as <-. cbn [h_block]. intros ->. destruct Orig as [X|X]; contradiction.
    + now apply (Nh i).
Qed.

Lemma drop_ok s fl vs used lost i h : sinv s fl vs used lost -> handle_at s i = Some h ->
  exists s', drop_block h (forget_handle i s) = Some s'
    /\ sinv s' (h_block h :: fl) (set_nth i None vs) used lost
    /\ same_shape (fa_mem (sh_alloc s)) (fa_mem (sh_alloc s'))
    /\ sh_handles s' = forget i (sh_handles s) /\ ckept (sh_alloc s) (sh_alloc s').
Proof.
  intros I Hh. rewrite hget_at in Hh. pose proof (si_val _ _ _ _ _ I i) as V. rewrite Hh in V.
  destruct V as (v & Ev & Hv). pose proof Hv as (b & G & Nb & Al & Pa & Pn & Nf & L & R).
  pose proof (fi_mem _ _ (si_alloc _ _ _ _ _ I)) as M. pose proof (block_pos _ _ _ M G) as P.
  destruct (dealloc_ok (sh_alloc s) fl (h_block h) b (si_alloc _ _ _ _ _ I) G Nf) as (f' & Ef & If & Sh & Ec & Eb & Ek).
  unfold drop_block. destruct (Z.eqb_spec (h_block h) 0) as [E|_]; [lia|]. cbn [negb forget_handle sh_alloc]. rewrite Ef. ob.
  eexists. split; [reflexivity|]. split; [|split; [exact Sh|split; [reflexivity|]]].
  2:{ split; [exact Ek|]. intros c. unfold cmeta. cbn [sh_alloc]. now rewrite Ec. }
  constructor; cbn [sh_alloc sh_handles forget_handle].
  - exact If.
  - rewrite forget_set, !set_nth_len. apply (si_len _ _ _ _ _ I).
  - intros j. rewrite hget_forget, value_set_none. destruct (Nat.eqb_spec j i) as [->|N]; [reflexivity|].
    pose proof (si_val _ _ _ _ _ I j) as V. destruct (hget (sh_handles s) j) as [h'|] eqn:Hj; [|exact V].
    destruct V as (v' & Ev' & Hv'). exists v'. split; [exact Ev'|]. eapply holds_kept; [exact Hv'|exact Sh| |].
    + intros [E|X].
      * apply (si_dist _ _ _ _ _ I i j h h' Hh Hj); congruence.
      * destruct Hv' as (b0 & _ & _ & _ & _ & _ & Nf' & _). contradiction.
    + intros b0 x _ _. now rewrite Eb.
  - intros j j' h1 h2 H1 H2. rewrite hget_forget in H1, H2.
    destruct (Nat.eqb j i); [discriminate|]. destruct (Nat.eqb j' i); [discriminate|].
    now apply (si_dist _ _ _ _ _ I j j').
  - intros c Ic. rewrite Ec in Ic. now apply (si_used _ _ _ _ _ I).
  - intros q Iq. destruct (si_lost _ _ _ _ _ I q Iq) as (K & Nq & Nh).
    split; [now apply (same_shape_keys (fa_mem (sh_alloc s)))|]. split.
    + intros [E|X]; [|contradiction]. now apply (Nh i h Hh).
    + intros j h' Hj. rewrite hget_forget in Hj. destruct (Nat.eqb j i); [discriminate|]. now apply (Nh j).
Qed.

Lemma free_ok s fl vs used lost i h : sinv s fl vs used lost -> handle_at s i = Some h ->
  exists s', shfree h (forget_handle i s) = Some s'
    /\ sinv s' fl (set_nth i None vs) used (lost ++ [h_block h])
    /\ sh_alloc s' = sh_alloc s.
Proof.
  intros I Hh. rewrite hget_at in Hh. pose proof (si_val _ _ _ _ _ I i) as V. rewrite Hh in V.
  destruct V as (v & Ev & b & G & Nb & Al & Pa & Pn & Nf & L & R).
  eexists. split; [reflexivity|]. split; [|reflexivity].
  constructor; cbn [sh_alloc sh_handles forget_handle].
  - apply (si_alloc _ _ _ _ _ I).
  - rewrite forget_set, !set_nth_len. apply (si_len _ _ _ _ _ I).
  - intros j. rewrite hget_forget, value_set_none. destruct (Nat.eqb_spec j i) as [->|N]; [reflexivity|].
    apply (si_val _ _ _ _ _ I j).
  - intros j j' h1 h2 H1 H2. rewrite hget_forget in H1, H2.
    destruct (Nat.eqb j i); [discriminate|]. destruct (Nat.eqb j' i); [discriminate|].
    now apply (si_dist _ _ _ _ _ I j j').
  - apply (si_used _ _ _ _ _ I).
  - intros q Iq. apply in_app_or in Iq. destruct Iq as [Iq|[<-|[]]].
    + destruct (si_lost _ _ _ _ _ I q Iq) as (K & Nq & Nh). split; [exact K|]. split; [exact Nq|].
      intros j h' Hj. rewrite hget_forget in Hj. destruct (Nat.eqb j i); [discriminate|]. now apply (Nh j).
    + split; [eapply get_keys, G|]. split; [exact Nf|]. intros j h' Hj. rewrite hget_forget in Hj.
      destruct (Nat.eqb_spec j i) as [_|N]; [discriminate|]. now apply (si_dist _ _ _ _ _ I j i).
Qed.

Lemma value_nth vs i v : value_of vs i = Some v -> nth_error vs i = Some (Some v).
Proof. unfold value_of. destruct (nth_error vs i); congruence. Qed.

Lemma write_ok s fl vs used lost i h k w : sinv s fl vs used lost -> handle_at s i = Some h ->
  0 <= k < h_size h ->
  exists s', write_at debug h k w s = Some s'
    /\ sinv s' fl (vstep vs (SWrite i k w)) used lost
    /\ same_shape (fa_mem (sh_alloc s)) (fa_mem (sh_alloc s')) /\ ckept (sh_alloc s) (sh_alloc s').
Proof.
  intros I Hh Rk. rewrite hget_at in Hh. pose proof (si_val _ _ _ _ _ I i) as V. rewrite Hh in V.
  destruct V as (v & Ev & Hv). destruct (get_ref0_ok _ _ _ _ Hv) as (b & G & Nb & E0).
  pose proof Hv as (b' & G' & _ & Al & Pa & Pn & Nf & L & R). rewrite G in G'. injection G' as <-.
  pose proof (fi_mem _ _ (si_alloc _ _ _ _ _ I)) as M.
  unfold write_at. rewrite E0. ob.
  rewrite (write_byte_frame _ (h_block h) b _ w M G) by (unfold extent; lia).
  eexists. split; [reflexivity|]. split; [|split; [intros q bq Gq; now exists bq|split; reflexivity]].
  cbn [vstep]. rewrite (value_nth _ _ _ Ev).
  replace ((0 <=? k) && (k <? Z.of_nat (length v))) with true by lia.
  constructor; cbn [sh_alloc sh_handles fa_mem].
  - destruct (si_alloc _ _ _ _ _ I) as [F1 F2 F3 F4 F5]. constructor; cbn [fa_mem fa_first fa_free fa_nbytes]; try assumption.
    now apply minv_bytes.
  - rewrite set_nth_len. apply (si_len _ _ _ _ _ I).
  - intros j. unfold value_of. rewrite nth_set_nth. destruct (Nat.eqb_spec j i) as [->|N].
    + rewrite Hh, (value_nth _ _ _ Ev). exists (set_nth (Z.to_nat k) w v). split; [reflexivity|].
      exists b. cbn [m_blocks]. rewrite set_nth_len. repeat split; try assumption.
      rewrite read_fill1 by lia. f_equal. rewrite <- R at 2. apply read_ext. intros x Rx. reflexivity.
    + fold (value_of vs j). pose proof (si_val _ _ _ _ _ I j) as V. destruct (hget (sh_handles s) j) as [h'|] eqn:Hj; [|exact V].
      destruct V as (v' & Ev' & Hv'). exists v'. split; [exact Ev'|]. pose proof Hv' as (b2 & G2 & N2 & _ & _ & P2 & Nf' & _).
      apply (holds_kept (fa_mem (sh_alloc s)) _ fl fl h' v' Hv'); [intros q bq Gq; now exists bq|exact Nf'|].
      intros b0 x G0 Rx. cbn [m_bytes]. apply fill_other.
      assert (Nb' : h_block h <> h_block h') by (apply (si_dist _ _ _ _ _ I i j h h' Hh Hj); congruence).
      pose proof (mi_bdisj _ M _ _ _ _ G G0 Nb') as D. destruct (mi_block _ M _ _ G) as (Ob & _). destruct (mi_block _ M _ _ G0) as (Ob0 & _).
      pose proof BS_pos. unfold apart, extent in *. lia.
  - apply (si_dist _ _ _ _ _ I).
  - apply (si_used _ _ _ _ _ I).
  - apply (si_lost _ _ _ _ _ I).
Qed.

Lemma sinv_more s fl vs used used' lost : sinv s fl vs used lost -> incl used used' -> sinv s fl vs used' lost.
Proof. intros [A B C D E F] H. constructor; try assumption. intros c Ic. now apply H, E. Qed.

Lemma gone_none s fl vs used lost i : sinv s fl vs used lost -> handle_at s i = None ->
  value_of vs i = None /\ forall j, value_of (set_nth i None vs) j = value_of vs j.
Proof.
  intros I H. rewrite hget_at in H. pose proof (si_val _ _ _ _ _ I i) as V. rewrite H in V. split; [exact V|].
  intros j. rewrite value_set_none. destruct (Nat.eqb_spec j i) as [->|N]; congruence.
Qed.
Lemma sinv_vals s fl vs vs' used lost : sinv s fl vs used lost -> length vs' = length vs ->
  (forall j, value_of vs' j = value_of vs j) -> sinv s fl vs' used lost.
Proof.
  intros [A B C D E F] L H. constructor; try assumption; [congruence|].
  intros i. rewrite H. apply C.
Qed.

Definition op_crel (op : shop) (f f' : falloc) : Prop :=
  match op with SMalloc _ _ o => crel o f f' | _ => ckept f f' end.
Lemma ckept_refl f : ckept f f.
Proof. split; reflexivity. Qed.

Lemma step_ok s fl vs used lost op : sinv s fl vs used lost -> op_ok used op ->
  exists s' fl', shstep debug s op = Some s'
    /\ sinv s' fl' (vstep vs op) (used ++ op_base op) (lost ++ op_lost s op)
    /\ same_shape (fa_mem (sh_alloc s)) (fa_mem (sh_alloc s')) /\ op_crel op (sh_alloc s) (sh_alloc s').
Proof.
  intros I Ok. destruct op as [val a o|i|i|i k w]; cbn [shstep op_base op_lost].
  - destruct (malloc_ok s fl vs used lost val a o I Ok) as (s' & h & fl' & E & I' & Sh & _ & _ & _ & _ & Cr).
    rewrite E. ob. cbn [fst]. exists s', fl'. rewrite app_nil_r. auto.
  - rewrite !app_nil_r. destruct (handle_at s i) as [h|] eqn:Hh.
    + destruct (drop_ok s fl vs used lost i h I Hh) as (s' & E & I' & Sh & _ & Cr). exists s', (h_block h :: fl). auto.
    + exists s, fl. split; [reflexivity|]. split; [|split; [apply same_shape_refl|apply ckept_refl]]. cbn [vstep].
      destruct (gone_none _ _ _ _ _ _ I Hh) as (_ & H). eapply sinv_vals; [exact I|apply set_nth_len|exact H].
  - rewrite !app_nil_r. destruct (handle_at s i) as [h|] eqn:Hh.
    + destruct (free_ok s fl vs used lost i h I Hh) as (s' & E & I' & Ea). exists s', fl. split; [exact E|]. split; [exact I'|].
      rewrite Ea. split; [apply same_shape_refl|]. cbn [op_crel]. apply ckept_refl.
    + exists s, fl. split; [reflexivity|]. split; [|split; [apply same_shape_refl|apply ckept_refl]]. cbn [vstep]. rewrite app_nil_r.
      destruct (gone_none _ _ _ _ _ _ I Hh) as (_ & H). eapply sinv_vals; [exact I|apply set_nth_len|exact H].
  - rewrite !app_nil_r. destruct (handle_at s i) as [h|] eqn:Hh.
    + destruct ((0 <=? k) && (k <? h_size h)) eqn:Rk.
      * destruct (write_ok s fl vs used lost i h k w I Hh) as (s' & E & I' & Sh & Cr); [lia|]. exists s', fl. auto.
      * exists s, fl. split; [reflexivity|]. split; [|split; [apply same_shape_refl|apply ckept_refl]].
        rewrite hget_at in Hh. pose proof (si_val _ _ _ _ _ I i) as V. rewrite Hh in V. destruct V as (v & Ev & b & _ & _ & _ & _ & _ & _ & L & _).
        cbn [vstep]. rewrite (value_nth _ _ _ Ev), <- L, Rk. exact I.
    + exists s, fl. split; [reflexivity|]. split; [|split; [apply same_shape_refl|apply ckept_refl]].
      cbn [vstep]. destruct (gone_none _ _ _ _ _ _ I Hh) as (V & _). unfold value_of in V.
      destruct (nth_error vs i) as [[v|]|]; try discriminate; exact I.
Qed.

Fixpoint ops_ok (used : list Z) (ops : list shop) : Prop :=
  match ops with [] => True | op :: ops => op_ok used op /\ ops_ok (used ++ op_base op) ops end.

Lemma run_ok : forall ops s fl vs used lost, sinv s fl vs used lost -> ops_ok used ops ->
  exists s' fl' lost', shrun debug ops s = Some s' /\ incl lost lost'
    /\ sinv s' fl' (fold_left vstep ops vs) (used ++ flat_map op_base ops) lost'
    /\ same_shape (fa_mem (sh_alloc s)) (fa_mem (sh_alloc s')).
Proof.
  induction ops as [|op ops IH]; intros s fl vs used lost I Ok.
  - exists s, fl, lost. cbn. rewrite app_nil_r. split; [reflexivity|]. split; [apply incl_refl|]. split; [exact I|apply same_shape_refl].
  - destruct Ok as [O1 O2]. destruct (step_ok s fl vs used lost op I O1) as (s1 & fl1 & E & I1 & S1 & _).
    destruct (IH s1 fl1 _ _ _ I1 O2) as (s2 & fl2 & l2 & E2 & Inc & I2 & S2).
    exists s2, fl2, l2. cbn [shrun fold_left flat_map]. rewrite E. ob. split; [exact E2|].
    split; [intros x Hx; apply Inc, in_or_app; now left|]. rewrite app_assoc. split; [exact I2|].
    eapply same_shape_trans; eassumption.
Qed.

Lemma run_app : forall ops1 ops2 s s1, shrun debug ops1 s = Some s1 -> shrun debug (ops1 ++ ops2) s = shrun debug ops2 s1.
Proof.
  induction ops1 as [|op ops IH]; intros ops2 s s1 E; [cbn in E; injection E as <-; reflexivity|].
  cbn [shrun app] in *. destruct (shstep debug s op) as [s0|]; [|discriminate]. ob. ob_in E. now apply IH.
Qed.

Lemma ops_ok_app : forall ops1 ops2 used, ops_ok used (ops1 ++ ops2) <->
  ops_ok used ops1 /\ ops_ok (used ++ flat_map op_base ops1) ops2.
Proof.
  induction ops1 as [|op ops IH]; intros ops2 used; cbn [app ops_ok flat_map].
  - rewrite app_nil_r. tauto.
  - rewrite IH, app_assoc. tauto.
Qed.

(** ** From the assumptions of the specification *)
Lemma ops_ok_of : forall ops used, requests_ok debug ops ->
  Forall (fun b => 0 < b /\ b mod 4096 = 0) (flat_map op_base ops) ->
  ForallOrdPairs (fun b c => apart b CHUNK_NBYTES c CHUNK_NBYTES) (flat_map op_base ops) ->
  (forall c b, In c used -> In b (flat_map op_base ops) -> apart c CHUNK_NBYTES b CHUNK_NBYTES) ->
  ops_ok used ops.
Proof.
  induction ops as [|op ops IH]; intros used Rq Fa Fo Di; [exact I|]. inversion Rq as [|? ? R1 R2]; subst.
  cbn [flat_map] in *. apply Forall_app in Fa. destruct Fa as [F1 F2].
  destruct op as [val a o|i|i|i k w]; cbn [ops_ok op_ok op_base app] in *;
    try (split; [exact I|]; rewrite ?app_nil_r; apply IH; assumption).
  inversion F1 as [|? ? (P & A) _]; subst. inversion Fo as [|? ? Fh Ft]; subst. split.
  - split; [exact R1|]. split; [exact P|]. split; [exact A|]. intros c Ic. apply Di; [exact Ic|now left].
  - apply IH; try assumption. intros c b Ic Ib. apply in_app_or in Ic. destruct Ic as [Ic|[<-|[]]].
    + apply Di; [exact Ic|now right].
    + rewrite Forall_forall in Fh. now apply Fh.
Qed.

Lemma init_ok o : 0 < o_base o -> o_base o mod 4096 = 0 -> sinv (shm_new debug o) [] [] [o_base o] [].
Proof.
  intros P A. pose proof CH_pos as PC.
  set (g := fill (o_base o) CH POISON (fill (o_base o) CHUNK_NBYTES 0 (fun _ => POISON))).
  assert (Es : shm_new debug o = mkShm (mkFalloc (mkMem [] [(o_base o, mkChunk (o_name o) CHUNK_NBYTES 0 0)] g)
     (o_base o) 0 CHUNK_NBYTES) 0 []) by reflexivity.
  rewrite Es. clear Es. clearbody g.
  constructor; cbn [sh_alloc sh_handles fa_mem].
  - constructor; cbn [fa_mem fa_first fa_nbytes fa_free m_blocks m_chunks].
    + constructor; cbn [m_blocks m_chunks].
      * constructor.
      * cbn. constructor; [intros []|constructor].
      * intros c ch E. rewrite get_cons in E. destruct (eqb_ok c (o_base o)) as [->|N]; [|discriminate].
        injection E as <-. cbn [c_nbytes c_cur]. rewrite chunk_nbytes. repeat split; try lia.
      * intros c c' [<-|[]] [<-|[]] N. contradiction.
      * intros p b E. discriminate.
      * intros p b q b' E. discriminate.
    + cbn. now left.
    + reflexivity.
    + constructor.
    + reflexivity.
  - reflexivity.
  - intros i. unfold hget, value_of. now destruct i.
  - intros i j h h' H. unfold hget in H. destruct i; discriminate.
  - cbn. intros c [<-|[]]. now left.
  - intros p [].
Qed.

Lemma kernel_ops o ops : kernel_ok o ops -> requests_ok debug ops ->
  0 < o_base o /\ o_base o mod 4096 = 0 /\ ops_ok [o_base o] ops.
Proof.
  intros (Fa & Fo) Rq. unfold answers in *. inversion Fa as [|? ? (P & A) Fa']; subst. inversion Fo as [|? ? Fh Ft]; subst.
  split; [exact P|]. split; [exact A|]. apply ops_ok_of; try assumption.
  intros c b [<-|[]] Ib. rewrite Forall_forall in Fh. now apply Fh.
Qed.

Lemma run_from_new o ops : kernel_ok o ops -> requests_ok debug ops ->
  exists s fl lost, shrun debug ops (shm_new debug o) = Some s
    /\ sinv s fl (vrun ops) (o_base o :: flat_map op_base ops) lost.
Proof.
  intros K R. destruct (kernel_ops o ops K R) as (P & A & Ok).
  destruct (run_ok ops _ _ _ _ _ (init_ok o P A) Ok) as (s & fl & lost & E & _ & I & _).
  exists s, fl, lost. split; [exact E|exact I].
Qed.

(** ** The properties *)
Lemma values_kept o ops : kernel_ok o ops -> requests_ok debug ops ->
  exists s, shrun debug ops (shm_new debug o) = Some s /\ forall i, seen s i = value_of (vrun ops) i.
Proof.
  intros K R. destruct (run_from_new o ops K R) as (s & fl & lost & E & I). exists s. split; [exact E|].
  intros i. unfold seen. rewrite hget_at. pose proof (si_val _ _ _ _ _ I i) as V.
  destruct (hget (sh_handles s) i) as [h|] eqn:Hh; [|now symmetry].
  destruct V as (v & Ev & Hv). destruct (get_ref0_ok _ _ _ _ Hv) as (b & G & Nb & E0).
  unfold deref. rewrite E0. ob. destruct Hv as (b' & G' & _ & _ & _ & _ & _ & L & Rd). rewrite G in G'. injection G' as <-.
  rewrite Ev, L, Nat2Z.id. now rewrite Rd.
Qed.

Lemma data_block s fl vs used lost i x n : sinv s fl vs used lost -> data_at s i x n ->
  exists h b, hget (sh_handles s) i = Some h /\ get (h_block h) (m_blocks (fa_mem (sh_alloc s))) = Some b
    /\ x = h_block h + b_off b /\ n = b_nbytes b /\ n = h_size h /\ 0 < n /\ x mod h_align h = 0 /\ 0 < h_align h.
Proof.
  intros I (h & Hh & -> & E). rewrite hget_at in Hh. pose proof (si_val _ _ _ _ _ I i) as V. rewrite Hh in V.
  destruct V as (v & Ev & Hv). destruct (get_ref0_ok _ _ _ _ Hv) as (b & G & Nb & E0). rewrite E in E0. injection E0 as ->.
  exists h, b. destruct Hv as (b' & G' & _ & Al & Pa & Pn & _). rewrite G in G'. injection G' as <-.
  repeat split; try assumption; try congruence. now apply align_offset_mod.
Qed.

Lemma placement o ops s : kernel_ok o ops -> requests_ok debug ops ->
  shrun debug ops (shm_new debug o) = Some s ->
  forall i h, handle_at s i = Some h -> exists x, data_at s i x (h_size h)
    /\ x mod h_align h = 0
    /\ (exists c, In c (answers o ops) /\ c + CHUNK_HDR debug <= x /\ x + h_size h <= c + CHUNK_NBYTES)
    /\ (forall j y n, data_at s j y n -> j <> i -> apart x (h_size h) y n)
    /\ (forall p, In p (keys (m_blocks (fa_mem (sh_alloc s)))) -> apart x (h_size h) p BS)
    /\ (forall c, In c (keys (m_chunks (fa_mem (sh_alloc s)))) -> apart x (h_size h) c CH).
Proof.
  intros K R E i h Hh. destruct (run_from_new o ops K R) as (s' & fl & lost & E' & I).
  rewrite E in E'. injection E' as <-. pose proof (fi_mem _ _ (si_alloc _ _ _ _ _ I)) as M.
  pose proof Hh as Hh'. rewrite hget_at in Hh'. pose proof (si_val _ _ _ _ _ I i) as V. rewrite Hh' in V.
  destruct V as (v & Ev & Hv). destruct (get_ref0_ok _ _ _ _ Hv) as (b & G & Nb & E0).
  destruct Hv as (b' & G' & _ & Al & Pa & Pn & _). rewrite G in G'. injection G' as <-.
  exists (h_block h + b_off b). split; [now exists h|]. split; [now apply align_offset_mod|].
  destruct (mi_block _ M _ _ G) as (Ob & _ & c & ch & Gc & L & U).
  destruct (mi_chunk _ M _ _ Gc) as (_ & _ & _ & Cu). pose proof BS_pos. unfold extent in U.
  split; [exists c; split; [apply (si_used _ _ _ _ _ I c), (get_keys _ _ _ Gc)|lia]|]. split; [|split].
  - intros j y n D Nij. destruct (data_block _ _ _ _ _ _ _ _ I D) as (h' & b' & Hj & G' & -> & -> & _ & P' & _).
    assert (Nb' : h_block h <> h_block h') by (apply (si_dist _ _ _ _ _ I i j h h' Hh' Hj); congruence).
    pose proof (mi_bdisj _ M _ _ _ _ G G' Nb') as X. destruct (mi_block _ M _ _ G') as (Ob' & _). unfold apart, extent in *. lia.
  - apply (data_apart_blocks _ _ _ _ _ M G); unfold extent; lia.
  - apply (range_apart_chunks _ _ _ c ch M Gc); lia.
Qed.

Lemma same_place o ops1 ops2 s1 s2 : kernel_ok o (ops1 ++ ops2) -> requests_ok debug (ops1 ++ ops2) ->
  shrun debug ops1 (shm_new debug o) = Some s1 -> shrun debug ops2 s1 = Some s2 ->
  forall i j x n y m, data_at s1 i x n -> data_at s2 j y m -> apart x n y m \/ (x = y /\ n = m).
Proof.
  intros K R E1 E2 i j x n y m D1 D2. destruct (kernel_ops _ _ K R) as (P & A & Ok).
  apply ops_ok_app in Ok. destruct Ok as [Ok1 Ok2].
  destruct (run_ok ops1 _ _ _ _ _ (init_ok o P A) Ok1) as (s1' & fl1 & l1 & E1' & _ & I1 & _).
  rewrite E1 in E1'. injection E1' as <-.
  destruct (run_ok ops2 _ _ _ _ _ I1 Ok2) as (s2' & fl2 & l2 & E2' & _ & I2 & S).
  rewrite E2 in E2'. injection E2' as <-.
  destruct (data_block _ _ _ _ _ _ _ _ I1 D1) as (h1 & b1 & _ & G1 & -> & -> & _ & P1 & _).
  destruct (data_block _ _ _ _ _ _ _ _ I2 D2) as (h2 & b2 & _ & G2 & -> & -> & _ & P2 & _).
  destruct (S _ _ G1) as (b1' & G1' & N1 & O1). pose proof (fi_mem _ _ (si_alloc _ _ _ _ _ I2)) as M.
  destruct (Z.eq_dec (h_block h1) (h_block h2)) as [Eq|Ne].
  - right. rewrite Eq in G1'. rewrite G2 in G1'. injection G1' as <-. lia.
  - left. pose proof (mi_bdisj _ M _ _ _ _ G1' G2 Ne) as D.
    destruct (mi_block _ M _ _ G1') as (Ob1 & _). destruct (mi_block _ M _ _ G2) as (Ob2 & _). pose proof BS_pos.
    unfold apart, extent in *. lia.
Qed.

Lemma recycled o ops val a o' s i x n : kernel_ok o (ops ++ [SMalloc val a o']) ->
  requests_ok debug (ops ++ [SMalloc val a o']) ->
  shrun debug ops (shm_new debug o) = Some s -> data_at s i x n -> n = Z.of_nat (length val) ->
  x mod a = 0 ->
  exists s', shrun debug [SDrop i; SMalloc val a o'] s = Some s' /\ data_at s' (length (sh_handles s)) x n.
Proof.
  intros K R E1 D En Ax. destruct (kernel_ops _ _ K R) as (P & A & Ok).
  apply ops_ok_app in Ok. destruct Ok as [Ok1 Ok2].
  destruct (run_ok ops _ _ _ _ _ (init_ok o P A) Ok1) as (s1' & fl1 & l1 & E1' & _ & I1 & _).
  rewrite E1 in E1'. injection E1' as <-.
  destruct (data_block _ _ _ _ _ _ _ _ I1 D) as (h & b & Hh & G & Ex & Enb & Es & Pn & _ & _).
  destruct (drop_ok _ _ _ _ _ i h I1 Hh) as (s2 & E2 & I2 & Sh & Hs2 & _).
  destruct Ok2 as [Om _]. destruct (malloc_ok s2 _ _ _ _ val a o' I2 Om) as (s3 & h3 & fl3 & E3 & I3 & Sh3 & Hh3 & Ls & La & Reuse & _).
  destruct (Sh _ _ G) as (b2 & G2 & N2 & O2).
  assert (Ha : 0 < a). { destruct Om as ((_ & (k & Pk & Ea) & _) & _). subst a. apply Z.pow_pos_nonneg; lia. }
  assert (Hb : h_block h3 = h_block h).
  { apply (Reuse (h_block h) fl1 b2 eq_refl G2); [lia|]. rewrite O2, <- Ex. now apply align_offset_zero. }
  exists s3. cbn [shrun shstep]. rewrite hget_at, Hh, E2. ob. rewrite E3. ob. split; [reflexivity|].
  assert (Lh : length (sh_handles s2) = length (sh_handles s)) by (rewrite Hs2, forget_set; apply set_nth_len).
  rewrite Lh in Hh3. exists h3. split; [exact Hh3|]. split; [lia|].
  pose proof (si_val _ _ _ _ _ I3 (length (sh_handles s))) as V. rewrite hget_at in Hh3. rewrite Hh3 in V.
  destruct V as (v & _ & Hv). destruct (get_ref0_ok _ _ _ _ Hv) as (b3 & G3 & _ & E0). rewrite E0.
  destruct (Sh3 _ _ G2) as (b3' & G3' & _ & O3). rewrite Hb in *. rewrite G3 in G3'. injection G3' as <-. f_equal. lia.
Qed.

Lemma leaked o ops1 ops2 s1 s2 i : kernel_ok o (ops1 ++ SFree i :: ops2) -> requests_ok debug (ops1 ++ SFree i :: ops2) ->
  shrun debug ops1 (shm_new debug o) = Some s1 -> shrun debug (SFree i :: ops2) s1 = Some s2 ->
  forall j x n y m, data_at s1 i x n -> data_at s2 j y m -> apart x n y m.
Proof.
  intros K R E1 E2 j x n y m D1 D2. destruct (kernel_ops _ _ K R) as (P & A & Ok).
  apply ops_ok_app in Ok. destruct Ok as [Ok1 Ok2].
  destruct (run_ok ops1 _ _ _ _ _ (init_ok o P A) Ok1) as (s1' & fl1 & l1 & E1' & _ & I1 & _).
  rewrite E1 in E1'. injection E1' as <-.
  destruct (data_block _ _ _ _ _ _ _ _ I1 D1) as (h1 & b1 & Hh & G1 & Ex & En & _ & P1 & _).
  destruct (free_ok _ _ _ _ _ i h1 I1 Hh) as (sf & Ef & If & Ea).
  cbn [shrun shstep] in E2. rewrite hget_at, Hh, Ef in E2. ob_in E2.
  destruct Ok2 as [_ Ok2]. cbn [op_base] in Ok2. rewrite app_nil_r in Ok2.
  destruct (run_ok ops2 _ _ _ _ _ If Ok2) as (s2' & fl2 & l2 & E2' & Inc & I2 & S).
  rewrite E2 in E2'. injection E2' as <-. rewrite Ea in S.
  destruct (data_block _ _ _ _ _ _ _ _ I2 D2) as (h2 & b2 & Hj & G2 & -> & -> & _ & P2 & _).
  destruct (S _ _ G1) as (b1' & G1' & N1 & O1). pose proof (fi_mem _ _ (si_alloc _ _ _ _ _ I2)) as M.
  assert (Ne : h_block h1 <> h_block h2).
  { destruct (si_lost _ _ _ _ _ I2 (h_block h1)) as (_ & _ & Nh); [apply Inc, in_or_app; right; now left|].
    intros Eq. apply (Nh j h2 Hj). congruence. }
  pose proof (mi_bdisj _ M _ _ _ _ G1' G2 Ne) as D.
  destruct (mi_block _ M _ _ G1') as (Ob1 & _). destruct (mi_block _ M _ _ G2) as (Ob2 & _). pose proof BS_pos.
  unfold apart, extent in *. lia.
Qed.

(** ** Requests the allocator cannot serve *)
Lemma too_big o o' val a : 0 < o_base o -> o_base o mod 4096 = 0 -> 0 < o_base o' -> o_base o' mod 4096 = 0 ->
  apart (o_base o) CHUNK_NBYTES (o_base o') CHUNK_NBYTES -> 0 < a -> CHUNK_NBYTES < Z.of_nat (length val) ->
  shmalloc debug o' val a (shm_new debug o) = None.
Proof.
  intros P A P' A' D Ha Big. pose proof (init_ok o P A) as I. pose proof (si_alloc _ _ _ _ _ I) as F.
  unfold shmalloc. set (n := Z.of_nat (length val)) in *.
  assert (E : alloc debug o' n a (sh_alloc (shm_new debug o)) = None); [|now rewrite E].
  assert (Hn : 0 < n) by (rewrite chunk_nbytes in Big; lia).
  rewrite alloc_eq. set (f := sh_alloc (shm_new debug o)) in *.
  destruct (walk_ok (fa_mem f) n a [] _ 0 (fa_free f) (fi_chain f [] F) (chain_fuel f [] F))
    as [(pr & E & _)|(l1 & q & l2 & b & Efl & _)]; [|destruct l1; discriminate].
  rewrite E. ob. cbv iota beta. change (negb (0 =? 0)) with false. cbv iota.
  assert (No : forall f1, finv f1 [] -> try_creating_block_in_chunk debug (fa_mem f1) (fa_first f1) n a = Some (fa_mem f1, 0)).
  { intros f1 F1. destruct (keys_get _ _ (fi_first f1 [] F1)) as [ch G].
    destruct (try_creating (fa_mem f1) (fa_first f1) ch n a (fi_mem _ _ F1) G Hn Ha)
      as [(bs & off & _ & _ & Lb & Lo & Ub & _)|(Try & _)]; [|exact Try].
    exfalso. destruct (mi_chunk _ (fi_mem _ _ F1) _ _ G) as (_ & _ & _ & Cu). pose proof CH_pos. pose proof BS_pos. lia. }
  rewrite (No f F). ob. cbn [fst snd]. change (0 =? 0) with true. cbv zeta iota.
  assert (If : mkFalloc (fa_mem f) (fa_first f) (fa_free f) (fa_nbytes f) = f) by now destruct f.
  rewrite If. destruct (add_chunk_ok f [] o' F P' A') as (g & _ & _ & Fa).
  { intros c Ic. pose proof (si_used _ _ _ _ _ I c Ic) as [<-|[]]. exact D. }
  unfold alloc_tail. rewrite (No _ Fa). ob. now rewrite (get_block_null _ (fi_mem _ _ Fa)).
Qed.
Lemma too_big_run o o' val a : 0 < o_base o /\ o_base o mod 4096 = 0 -> 0 < o_base o' /\ o_base o' mod 4096 = 0 ->
  apart (o_base o) CHUNK_NBYTES (o_base o') CHUNK_NBYTES -> 0 < a -> CHUNK_NBYTES < Z.of_nat (length val) ->
  shrun debug [SMalloc val a o'] (shm_new debug o) = None.
Proof. intros (P & A) (P' & A') D Ha Big. cbn [shrun shstep]. now rewrite (too_big o o' val a). Qed.
End Debug.
