From Verif Require Import Base SeqModel SeqSpec SeqProofs TcpBufModel TcpBufSpec TcpBufProofs TcpQueueProofs TcpConnModel TcpConnSpec.

Lemma syms_len a b c : zlen (syms a b c) = b2z a + zlen b + b2z c.
Proof. unfold syms. rewrite !zlen_app, zlen_map. destruct a, c; unfold zlen; cbn; lia. Qed.
Lemma zlen_one {A} (x : A) : zlen [x] = 1. Proof. reflexivity. Qed.

(** * What is sent *)
Section Sending.
Variables (iss : Z) (w : list Z) (sh : bool) (k t W : Z) (q : sendq).
Let str := stream w sh.
Hypothesis (OK : sq_ok iss str k q) (TX : tx q = pos iss t) (KT : k <= t <= zlen str) (WB : 0 <= W < 2147483648).

Record acc_ok (a : acc) : Prop := {
  ao_len : 0 <= a_len a; ao_end : t + a_len a <= zlen str;
  ao_syms : syms (a_syn a) (concat (a_chunks a)) (a_fin a) = cut 0 t (t + a_len a) str;
  ao_start : a_start a = if a_len a =? 0 then None else Some (pos iss t);
  ao_bytes : a_bytes a = zlen (concat (a_chunks a));
  ao_mss : a_bytes a <= 1500;
  ao_win : 0 < a_len a -> t + a_len a <= k + W;
  ao_chunks : Forall (fun c => 0 < zlen c) (a_chunks a) }.
Lemma acc0_ok : acc_ok acc0.
Proof using All.
  constructor; cbn [a_len a_chunks a_syn a_fin a_start a_bytes acc0]; try lia; auto.
  cbn. rewrite cut_none by lia. reflexivity.
Qed.

Definition stuck (a : acc) : Prop := a_bytes a = 1500 \/ k + W <= t + a_len a.

Lemma data_loop_ok : forall fuel a, acc_ok a -> (1 <= fuel)%nat -> stuck a \/ (after (segs q) k (t + a_len a) < fuel)%nat ->
  exists a', data_loop fuel q (rng iss k (k + W)) a = Some a' /\ acc_ok a' /\ a_len a <= a_len a' /\ (a_len a' = 0 -> t = zlen str \/ k + W <= t).
Proof using All.
  induction fuel as [|fuel IH]; intros a AO F1 FU; [lia|]. cbn [data_loop]. destruct AO as [L E SY ST BY MS WI CH].
  pose proof (so_k _ _ _ _ OK) as K. pose proof (so_small _ _ _ _ OK) as SM.
  pose proof (next_not_transmitted_ok iss str k q t (a_len a) OK TX ltac:(lia) E) as N.
  assert (AO : acc_ok a) by (constructor; assumption).
  destruct (Z.ltb_spec (t + a_len a) (zlen str)) as [LT|GE].
  2: { rewrite N. ob. exists a. split; [reflexivity|]. split; [exact AO|]. split; [lia|]. intros Z0. left. lia. }
  destruct N as (s & N & PS & ES & CS & AF). rewrite N. ob. rewrite contains_rng by lia. rewrite (proj2 (Z.leb_le k (t + a_len a))) by lia. cbn [andb].
  destruct (Z.ltb_spec (t + a_len a) (k + W)) as [IN|OUT]; cbn [negb].
  2: { exists a. split; [reflexivity|]. split; [exact AO|]. split; [lia|]. intros Z0. right. lia. }
  destruct (Z.eqb_spec (a_bytes a) MSS) as [FULL|ROOM]; unfold MSS in *.
  { exists a. split; [reflexivity|]. split; [exact AO|]. split; [lia|]. intros Z0. exfalso.
    rewrite Z0, Z.add_0_r in SY. pose proof (f_equal zlen SY) as X. rewrite syms_len, cut_len in X by lia. pose proof (zlen_nonneg (concat (a_chunks a))). destruct (a_syn a), (a_fin a); cbn in X; lia. }
  assert (AFT : (after (segs q) k (t + a_len a) <= fuel)%nat) by (destruct FU as [[X|X]|X]; lia).
  assert (NF : a_fin a = false).
  { destruct (a_fin a) eqn:FN; [exfalso|reflexivity]. unfold syms in SY. rewrite app_assoc in SY. symmetry in SY. apply cut_fin in SY; [|lia].
    destruct SY as (_ & SY). pose proof (ao_syms a AO) as X. rewrite FN in X. apply (f_equal zlen) in X. rewrite syms_len, cut_len in X by lia.
    rewrite zlen_app, zlen_map in SY. fold str in SY. destruct (a_syn a); cbn in X, SY; rewrite ?zlen_one in SY; change (zlen (@nil sym)) with 0 in SY; lia. }
  assert (STP : forall n, 0 < n -> (match a_start a with None => Some (pos iss (t + a_len a)) | x => x end) = if a_len a + n =? 0 then None else Some (pos iss t)).
  { intros n P. rewrite ST. destruct (Z.eqb_spec (a_len a) 0) as [Z0|NZ], (Z.eqb_spec (a_len a + n) 0); try lia; [|reflexivity]. rewrite Z0. f_equal. f_equal. lia. }
  destruct s as [c| |]; cbn [seg_len seg_syms] in *.
  - set (m := Z.min (zlen c) _). assert (M : m = Z.min (zlen c) (Z.min (1500 - a_bytes a) (k + W - (t + a_len a)))).
    { unfold m. cbn [end_ rng]. rewrite pos_diff by lia. lia. }
    assert (ZM : zlen (zfirst m c) = m) by (rewrite zlen_zfirst; lia). cbn [a_bytes]. rewrite ZM. rewrite assert_true by (apply Z.leb_le; lia).
    match goal with |- context [data_loop fuel q _ ?x] => set (a1 := x) end.
    assert (AO1 : acc_ok a1).
    { constructor; unfold a1; cbn [a_len a_chunks a_syn a_fin a_start a_bytes]; rewrite ?ZM; try lia.
      - rewrite concat_app. cbn [concat]. rewrite app_nil_r. replace (t + (a_len a + m)) with (t + a_len a + m) by lia.
        rewrite (cut_split t (t + a_len a)) by lia. rewrite <- SY. unfold syms. rewrite NF. rewrite map_app. cbn [app].
        rewrite !app_nil_r, <- app_assoc. do 2 f_equal. rewrite <- (cut_zfirst m c), <- cut_map.
        change (map (fun b => SByte b) c) with (map SByte c). rewrite CS. rewrite (cut_of_zskip (t + a_len a) (t + a_len a + m)) by lia.
        rewrite (cut_of_zskip (t + a_len a) (t + a_len a + zlen c)) by lia. rewrite cut_zfirst. unfold zfirst. rewrite firstn_firstn. f_equal. lia.
      - apply STP. lia.
      - rewrite concat_app, zlen_app, BY. cbn [concat]. rewrite app_nil_r, ZM. lia.
      - apply Forall_app. split; [exact CH|]. constructor; [lia|constructor]. }
    assert (LE : a_len a1 = a_len a + m) by reflexivity.
    destruct (IH a1 AO1) as (a' & E' & AO' & L' & Z').
    + assert (after (segs q) k (t + a_len a) <> 0)%nat by lia. lia.
    + destruct (Z.eq_dec m (zlen c)) as [FC|NC].
      * right. rewrite LE, FC. replace (t + (a_len a + zlen c)) with (t + a_len a + zlen c) by lia. lia.
      * left. unfold stuck. rewrite LE. unfold a1. cbn [a_bytes]. lia.
    + exists a'. split; [exact E'|]. split; [exact AO'|]. split; [lia|]. intros Z0. lia.
  - cbn [a_bytes]. rewrite assert_true by (apply Z.leb_le; lia).
    assert (T0 : t + a_len a = 0) by (eapply cut_syn; [lia|]; symmetry; exact CS).
    assert (X0 : a_syn a = false /\ concat (a_chunks a) = []).
    { replace (a_len a) with 0 in SY by lia. rewrite cut_none in SY by lia. apply (f_equal zlen) in SY. rewrite syms_len in SY.
      pose proof (zlen_nonneg (concat (a_chunks a))). change (zlen (@nil sym)) with 0 in SY. destruct (a_syn a), (a_fin a); cbn in SY; try lia. split; [reflexivity|]. apply zlen_0. lia. }
    match goal with |- context [data_loop fuel q _ ?x] => set (a1 := x) end.
    assert (AO1 : acc_ok a1).
    { constructor; unfold a1; cbn [a_len a_chunks a_syn a_fin a_start a_bytes]; try lia; auto.
      - destruct X0 as (_ & ->). rewrite NF. replace (t + (a_len a + 1)) with (t + a_len a + 1) by lia. replace t with (t + a_len a) at 1 by lia. exact CS. }
    destruct (IH a1 AO1) as (a' & E' & AO' & L' & Z').
    + lia.
    + right. unfold a1. cbn [a_len]. replace (t + (a_len a + 1)) with (t + a_len a + 1) by lia. lia.
    + unfold a1 in L'. cbn [a_len] in L'. exists a'. split; [exact E'|]. split; [exact AO'|]. split; lia.
  - cbn [a_bytes]. rewrite assert_true by (apply Z.leb_le; lia).
    match goal with |- context [data_loop fuel q _ ?x] => set (a1 := x) end.
    assert (AO1 : acc_ok a1).
    { constructor; unfold a1; cbn [a_len a_chunks a_syn a_fin a_start a_bytes]; try lia; auto.
      - replace (t + (a_len a + 1)) with (t + a_len a + 1) by lia. rewrite (cut_split t (t + a_len a)) by lia. rewrite <- SY, <- CS. unfold syms. rewrite NF.
        rewrite !app_nil_r, <- app_assoc. reflexivity. }
    destruct (IH a1 AO1) as (a' & E' & AO' & L' & Z').
    + lia.
    + right. unfold a1. cbn [a_len]. replace (t + (a_len a + 1)) with (t + a_len a + 1) by lia. lia.
    + unfold a1 in L'. cbn [a_len] in L'. exists a'. split; [exact E'|]. split; [exact AO'|]. split; lia.
Qed.

(** A data segment is the next part of the stream that fits the window. *)
Definition data_out (o : out_seg) : Prop := exists l, 0 < l /\ t + l <= zlen str /\ t + l <= k + W /\
  o_range o = rng iss t (t + l) /\ syms (o_syn o) (concat (o_pay o)) (o_fin o) = cut 0 t (t + l) str /\ zlen (concat (o_pay o)) <= 1500 /\ o_rst o = false.
Lemma next_data_ok c : c_sq c = q -> c_win c = W ->
  exists o, next_data_segment c = Some o /\ match o with Some o => data_out o | None => t = zlen str \/ k + W <= t end.
Proof using All.
  intros Q CW. pose proof (so_k _ _ _ _ OK) as K. unfold next_data_segment, send_window. rewrite Q, CW. rewrite (so_start _ _ _ _ OK), pos_add.
  change {| start := pos iss k; end_ := pos iss (k + W) |} with (rng iss k (k + W)).
  destruct (data_loop_ok (S (S (length (segs q)))) acc0 acc0_ok) as (a & E & AO & _ & Z0); [lia|right; pose proof (after_le (segs q) k (t + a_len acc0)); lia|].
  rewrite E. ob. destruct AO as [L EN SY ST BY MS WI CH]. destruct (Z.eqb_spec (a_len a) 0) as [AZ|AN].
  - assert (X : a_syn a = false /\ a_fin a = false /\ a_chunks a = []).
    { rewrite AZ, Z.add_0_r, cut_none in SY by lia. apply (f_equal zlen) in SY. rewrite syms_len in SY. pose proof (zlen_nonneg (concat (a_chunks a))).
      change (zlen (@nil sym)) with 0 in SY. destruct (a_syn a), (a_fin a); cbn in SY; try lia. split; [reflexivity|]. split; [reflexivity|].
      destruct (a_chunks a) as [|c0 l]; [reflexivity|]. inversion CH; subst. cbn [concat] in *. rewrite zlen_app in *. pose proof (zlen_nonneg (concat l)). lia. }
    destruct X as (-> & -> & ->). cbn [negb orb]. exists None. split; [reflexivity|]. now apply Z0.
  - assert (X : negb (match a_chunks a with [] => true | _ => false end) || a_syn a || a_fin a = true).
    { destruct (a_chunks a) eqn:CE; [|reflexivity]. cbn [negb orb]. apply (f_equal zlen) in SY. rewrite syms_len, cut_len in SY by lia. cbn [concat] in SY.
      change (zlen (@nil Z)) with 0 in SY. destruct (a_syn a), (a_fin a); cbn in SY |- *; try reflexivity. lia. }
    rewrite X, ST. ob. eexists. split; [reflexivity|]. exists (a_len a). cbn [o_range o_syn o_fin o_rst o_pay]. rewrite pos_add. unfold rng.
    split; [lia|]. split; [lia|]. split; [apply WI; lia|]. split; [reflexivity|]. split; [exact SY|]. split; [lia|reflexivity].
Qed.
End Sending.

(** * Trimming *)
Definition meets (a b c d : Z) : bool :=
  if a =? b then if c =? d then a =? c else (c <=? a) && (a <? d) else if c =? d then (a <=? c) && (c <? b) else Z.max a c <? Z.min b d.
Lemma inter_meets i a b c d : a <= b -> c <= d -> b - a < 4294967296 -> d - c < 4294967296 -> b - c < 4294967296 -> d - a < 4294967296 ->
  intersection (rng i a b) (rng i c d) = if meets a b c d then Some (rng i (Z.max a c) (Z.min b d)) else None.
Proof. intros. now apply inter_rng. Qed.
Lemma meets_le a b c d : a <= b -> c <= d -> meets a b c d = true -> Z.max a c <= Z.min b d.
Proof. intros A C. unfold meets. destruct (Z.eqb_spec a b), (Z.eqb_spec c d); lia. Qed.
Lemma not_meets {A} a c d (l : list A) : c <= d -> meets a (a + zlen l) c d = false -> cut a c d l = [].
Proof.
  intros C. unfold meets. pose proof (zlen_nonneg l). intros M. apply zlen_0. rewrite zlen_cut. destruct (Z.eqb_spec a (a + zlen l)), (Z.eqb_spec c d); lia.
Qed.

Lemma pay_len_ok p : zlen (concat p) <= U32_MAX -> pay_len p = Some (zlen (concat p)).
Proof. intros L. unfold pay_len. rewrite zsum_zlen. rewrite assert_true; [reflexivity|]. now apply Z.leb_le. Qed.
Lemma pay_empty_ok p : pay_empty p = true <-> concat p = [].
Proof.
  unfold pay_empty. induction p as [|c p IH]; cbn; [tauto|]. rewrite andb_true_iff, Z.eqb_eq, IH. split.
  - intros (Z0 & ->). apply zlen_0 in Z0. now subst.
  - intros E. apply app_eq_nil in E. destruct E as (-> & ->). auto.
Qed.

Section Trim.
Variables (i r w : Z).
Hypothesis WB : 0 <= w < 4294967296.
Lemma trim_chunk_ok s c : s + zlen c - r < 4294967296 -> r + w - s < 4294967296 -> zlen c < 4294967296 ->
  (match intersection (rng i s (s + zlen c)) (rng i r (r + w)) with Some x => seq_diff (start x) (pos i s) <=? zlen c | None => true end) = true /\
  (match trim_chunk (pos i s) c (rng i r (r + w)) with Some c' => c' | None => [] end) = cut s r (r + w) c.
Proof using WB.
  intros A B C. pose proof (zlen_nonneg c). unfold trim_chunk. rewrite pos_add. change {| start := pos i s; end_ := pos i (s + zlen c) |} with (rng i s (s + zlen c)).
  rewrite inter_meets by lia. destruct (meets s (s + zlen c) r (r + w)) eqn:M.
  - apply meets_le in M; [|lia|lia]. rewrite len_rng by lia. cbn [start rng]. rewrite pos_diff by lia. split; [apply Z.leb_le; lia|].
    unfold cut, zfirst, zskip. rewrite firstn_skipn_comm. f_equal; [lia|].
    destruct (Z.le_gt_cases (s + zlen c) (r + w)).
    + rewrite !firstn_all2 by (unfold zlen in *; lia). reflexivity.
    + f_equal. lia.
  - split; [reflexivity|]. symmetry. apply not_meets; [lia|exact M].
Qed.
Lemma trim_chunks_ok : forall p s, s + zlen (concat p) - r < 4294967296 -> r + w - s < 4294967296 -> zlen (concat p) < 4294967296 ->
  exists p', trim_chunks (pos i s) p (rng i r (r + w)) = Some p' /\ concat p' = cut s r (r + w) (concat p).
Proof using WB.
  induction p as [|c p IH]; intros s A B C; cbn [trim_chunks concat] in *.
  { exists []. cbn. now rewrite cut_nil. }
  rewrite zlen_app in *. pose proof (zlen_nonneg c). pose proof (zlen_nonneg (concat p)).
  destruct (trim_chunk_ok s c) as (T1 & T2); [lia|lia|lia|]. rewrite pos_add. change {| start := pos i s; end_ := pos i (s + zlen c) |} with (rng i s (s + zlen c)).
  rewrite T1. rewrite assert_true by reflexivity. destruct (IH (s + zlen c)) as (p' & E & Q); [lia|lia|lia|]. rewrite E. ob. eexists. split; [reflexivity|].
  cbn [concat]. rewrite T2, Q. now rewrite cut_app.
Qed.
Lemma trim_payload_ok p s : s + zlen (concat p) - r < 4294967296 -> r + w - s < 4294967296 -> zlen (concat p) < 4294967296 ->
  exists o, trim_payload (pos i s) p (rng i r (r + w)) = Some o /\
    match o with
    | Some (s', p') => meets s (s + zlen (concat p)) r (r + w) = true /\ s' = pos i (Z.max s r) /\ concat p' = cut s r (r + w) (concat p)
    | None => meets s (s + zlen (concat p)) r (r + w) = false
    end.
Proof using WB.
  intros A B C. pose proof (zlen_nonneg (concat p)). unfold trim_payload. rewrite pay_len_ok by (unfold U32_MAX; lia). ob. rewrite pos_add.
  change {| start := pos i s; end_ := pos i (s + zlen (concat p)) |} with (rng i s (s + zlen (concat p))). rewrite inter_meets by lia.
  destruct (meets s (s + zlen (concat p)) r (r + w)) eqn:M; [|eexists; split; [reflexivity|reflexivity]].
  pose proof M as ML. apply meets_le in ML; [|lia|lia].
  match goal with |- context [range_eqb ?x ?y] => destruct (range_eqb x y) eqn:RE end.
  - apply range_eqb_spec, rng_inj in RE; [|lia|lia]. eexists. split; [reflexivity|]. cbv beta iota. split; [reflexivity|]. split; [f_equal; lia|].
    symmetry. apply cut_all; lia.
  - destruct (trim_chunks_ok p s A B C) as (p' & E & Q). rewrite E. ob.
    assert (ZC : zlen (concat p') = Z.min (s + zlen (concat p)) (r + w) - Z.max s r) by (rewrite Q, zlen_cut; lia).
    rewrite pay_len_ok by (unfold U32_MAX; lia). ob. rewrite len_rng by lia. rewrite assert_true by (apply Z.eqb_eq; lia).
    eexists. split; [reflexivity|]. cbv beta iota. auto.
Qed.

Lemma cut_syms s a b c : cut s r (r + w) (syms a b c) =
  syms (a && ((r <=? s) && (s <? r + w))) (cut (s + b2z a) r (r + w) b) (c && ((r <=? s + b2z a + zlen b) && (s + b2z a + zlen b <? r + w))).
Proof using WB.
  unfold syms. rewrite !cut_app, cut_map, zlen_map. f_equal; [|f_equal].
  - destruct a; cbn [andb]; [|apply cut_nil]. rewrite cut_one. reflexivity.
  - f_equal. destruct a; reflexivity.
  - replace (s + zlen (if a then [SSyn] else [])) with (s + b2z a) by (destruct a; reflexivity). destruct c; cbn [andb]; [|apply cut_nil]. now rewrite cut_one.
Qed.

Lemma trim_segment_ok h p p0 : h_seq h = pos i p0 -> zlen (pkt_syms h p) < 4294967296 ->
  p0 + zlen (pkt_syms h p) - r < 4294967296 -> r + w - p0 < 4294967296 ->
  exists o, trim_segment h p (rng i r (r + w)) = Some o /\
    match o with
    | Some (h', p') =>
        meets p0 (p0 + zlen (pkt_syms h p)) r (r + w) = true /\ h_seq h' = pos i (Z.max p0 r) /\ pkt_syms h' p' = cut p0 r (r + w) (pkt_syms h p) /\
        h_ack h' = h_ack h /\ h_acknum h' = h_acknum h /\ h_win h' = h_win h /\ h_rst h' = h_rst h
    | None => meets p0 (p0 + zlen (pkt_syms h p)) r (r + w) = false
    end.
Proof using WB.
  intros HS L A B. unfold pkt_syms in *. rewrite syms_len in *. pose proof (zlen_nonneg (concat p)) as PN. unfold trim_segment.
  assert (SB : 0 <= b2z (h_syn h) <= 1) by (destruct (h_syn h); cbn; lia). assert (FB : 0 <= b2z (h_fin h) <= 1) by (destruct (h_fin h); cbn; lia).
  rewrite pay_len_ok by (unfold U32_MAX; lia). ob. rewrite HS, !pos_add. set (L0 := b2z (h_syn h) + zlen (concat p) + b2z (h_fin h)) in *.
  replace (p0 + (b2z (h_syn h) + (zlen (concat p) + b2z (h_fin h)))) with (p0 + L0) by (unfold L0; lia).
  change {| start := pos i p0; end_ := pos i (p0 + L0) |} with (rng i p0 (p0 + L0)). rewrite inter_meets by (unfold L0 in *; lia).
  destruct (meets p0 (p0 + L0) r (r + w)) eqn:M; [|eexists; split; [reflexivity|reflexivity]].
  pose proof M as ML. apply meets_le in ML; [|unfold L0; lia|lia].
  match goal with |- context [range_eqb ?x ?y] => destruct (range_eqb x y) eqn:RE end.
  { apply range_eqb_spec, rng_inj in RE; [|lia|lia]. eexists. split; [reflexivity|]. cbv beta iota. split; [reflexivity|]. split; [rewrite HS; f_equal; lia|].
    split; [|auto]. symmetry. apply cut_all; rewrite ?syms_len; fold L0; lia. }
  cbn [start end_ rng]. rewrite pos_sub. rewrite contains_rng by lia.
  destruct (trim_payload_ok p (p0 + b2z (h_syn h))) as (o & E & R); [unfold L0 in *; lia|lia|lia|]. rewrite E. ob.
  assert (FX : h_fin h && contains (rng i r (r + w)) (pos i (p0 + L0 - 1)) =
               h_fin h && ((r <=? p0 + b2z (h_syn h) + zlen (concat p)) && (p0 + b2z (h_syn h) + zlen (concat p) <? r + w))).
  { destruct (h_fin h) eqn:HF; cbn [andb]; [|reflexivity]. cbn in FB. rewrite contains_rng by (unfold L0 in *; rewrite ?HF in *; cbn [b2z] in *; lia).
    unfold L0. cbn [b2z]. f_equal; f_equal; lia. }
  rewrite FX. clear FX.
  assert (SY : forall p', concat p' = cut (p0 + b2z (h_syn h)) r (r + w) (concat p) ->
    syms (h_syn h && ((r <=? p0) && (p0 <? r + w))) (concat p') (h_fin h && ((r <=? p0 + b2z (h_syn h) + zlen (concat p)) && (p0 + b2z (h_syn h) + zlen (concat p) <? r + w))) =
    cut p0 r (r + w) (syms (h_syn h) (concat p) (h_fin h))).
  { intros p' Q. rewrite cut_syms. now rewrite Q. }
  destruct o as [(s', p')|].
  - destruct R as (MP & -> & Q). rewrite assert_true.
    + ob. eexists. split; [reflexivity|]. cbv beta iota. split; [reflexivity|]. cbn [h_seq h_syn h_fin h_ack h_acknum h_win h_rst]. split; [reflexivity|]. split; [|auto]. now apply SY.
    + rewrite pos_add. apply Z.eqb_eq. f_equal. destruct (h_syn h) eqn:HSY; cbn [andb b2z] in *; [|lia].
      pose proof MP as MQ. apply meets_le in MQ; [|lia|lia]. destruct (Z.leb_spec r p0), (Z.ltb_spec p0 (r + w)); cbn [andb b2z]; try lia.
  - ob. eexists. split; [reflexivity|]. cbv beta iota. split; [reflexivity|]. cbn [h_seq h_syn h_fin h_ack h_acknum h_win h_rst]. split; [reflexivity|]. split; [|auto].
    apply SY. cbn. symmetry. apply not_meets; [lia|exact R].
Qed.
End Trim.

(** * Receiving *)
Lemma add_chunks_ok irs : forall p r buf q, rq_ok irs r buf q -> rsyn q = true -> rfin q = false -> zlen buf + zlen (concat p) <= 100000 ->
  exists q', add_chunks q p = Some q' /\ rq_ok irs (r + zlen (concat p)) (buf ++ concat p) q' /\ rsyn q' = true /\ rfin q' = false.
Proof.
  induction p as [|c p IH]; intros r buf q OK S F L; cbn [add_chunks concat] in *.
  { exists q. change (zlen (@nil Z)) with 0. rewrite Z.add_0_r, app_nil_r. auto. }
  rewrite zlen_app in L. pose proof (zlen_nonneg (concat p)). pose proof (zlen_nonneg c).
  destruct (add_r_ok irs r buf q c OK S F) as (q1 & E & OK1 & S1 & F1); [lia|]. rewrite E. ob.
  destruct (IH (r + zlen c) (buf ++ c) q1 OK1 S1 F1) as (q' & E' & OK' & R); [rewrite zlen_app; lia|]. exists q'. split; [exact E'|].
  rewrite zlen_app, <- app_assoc in *. rewrite Z.add_assoc. auto.
Qed.

Lemma take_segment_ok irs r buf q closed h p p1 : rq_ok irs r buf q -> rfin q = closed -> h_seq h = pos irs p1 -> r <= p1 ->
  p1 + zlen (pkt_syms h p) - r < 4294967296 -> zlen buf + zlen (concat p) <= 100000 ->
  (rsyn q = true \/ p1 = r /\ h_syn h = true) ->
  take_segment q closed h p =
    (if closed then Some (Some (q, closed, 0)) else if h_syn h && rsyn q then Some None
     else if p1 =? r then take_segment q closed h p else Some (Some (q, closed, 0))) /\
  (closed = false -> h_syn h && rsyn q = false -> p1 = r ->
   exists q', take_segment q closed h p = Some (Some (q', rfin q', zlen (concat p))) /\ rq_ok irs (r + zlen (pkt_syms h p)) (buf ++ concat p) q' /\
     rsyn q' = true /\ rfin q' = h_fin h).
Proof.
  intros OK F HS RP SP L SY. unfold take_segment. pose proof (zlen_nonneg (concat p)) as PN. unfold pkt_syms in *. rewrite syms_len in *. split.
  - destruct closed; [reflexivity|]. destruct (h_syn h && rsyn q) eqn:D; [reflexivity|]. destruct (Z.eqb_spec p1 r) as [|N]; [reflexivity|].
    destruct SY as [SY|(X & _)]; [|congruence]. rewrite SY, andb_true_r in D. rewrite D in *. cbn [b2z] in *. ob. rewrite pay_len_ok by (unfold U32_MAX; destruct (h_fin h); cbn [b2z] in SP; lia). ob.
    rewrite HS, !pos_add, (ro_end _ _ _ _ OK), Z.add_0_r. destruct (Z.eqb_spec (pos irs p1) (pos irs r)) as [X|_].
    { apply pos_inj in X; [congruence|destruct (h_fin h); cbn [b2z] in SP; lia]. }
    rewrite andb_false_r. cbv beta iota. ob. cbv beta iota. rewrite (ro_end _ _ _ _ OK). destruct (h_fin h) eqn:HF; cbn [andb]; [|reflexivity].
    destruct (Z.eqb_spec (pos irs (p1 + zlen (concat p))) (pos irs r)) as [X|_]; [|reflexivity]. apply pos_inj in X; cbn [b2z] in SP; lia.
  - intros -> D ->. rewrite D.
    assert (exists q1, (if h_syn h then add_syn_r q else Some q) = Some q1 /\ rq_ok irs (r + b2z (h_syn h)) buf q1 /\ rsyn q1 = true /\ rfin q1 = false) as (q1 & E1 & OK1 & S1 & F1).
    { destruct (h_syn h) eqn:HSY; cbn [andb b2z] in *.
      - destruct (add_syn_r_ok irs r buf q OK D) as (q' & E & R). exists q'. rewrite F in R. auto.
      - exists q. rewrite Z.add_0_r. destruct SY as [SY|(_ & X)]; [auto|discriminate X]. }
    rewrite E1. ob. rewrite pay_len_ok by (unfold U32_MAX; destruct (h_fin h), (h_syn h); cbn [b2z] in SP; lia). ob.
    rewrite HS, !pos_add, (ro_end _ _ _ _ OK1), Z.eqb_refl, andb_true_r.
    assert (exists q2, (if negb (zlen (concat p) =? 0) then do q0 <- add_chunks q1 p; Some (q0, zlen (concat p)) else Some (q1, 0)) = Some (q2, zlen (concat p)) /\
            rq_ok irs (r + b2z (h_syn h) + zlen (concat p)) (buf ++ concat p) q2 /\ rsyn q2 = true /\ rfin q2 = false) as (q2 & E2 & OK2 & S2 & F2).
    { destruct (Z.eqb_spec (zlen (concat p)) 0) as [Z0|NZ]; cbn [negb].
      - rewrite Z0, Z.add_0_r. apply zlen_0 in Z0. rewrite Z0, app_nil_r. exists q1. auto.
      - destruct (add_chunks_ok irs p _ _ _ OK1 S1 F1 L) as (q2 & E & R). rewrite E. ob. exists q2. auto. }
    rewrite E2. ob. cbv beta iota. rewrite (ro_end _ _ _ _ OK2). rewrite Z.add_assoc, Z.eqb_refl, andb_true_r. destruct (h_fin h) eqn:HF; cbn [b2z] in *.
    + destruct (add_fin_r_ok _ _ _ _ OK2 S2 F2) as (q3 & E3 & OK3 & S3 & F3). rewrite E3. ob. exists q3. rewrite F3. split; [reflexivity|]. split; [|auto].
      match goal with |- rq_ok _ ?x _ _ => replace x with (r + b2z (h_syn h) + zlen (concat p) + 1) by ring end. exact OK3.
    + exists q2. rewrite F2. split; [reflexivity|]. split; [|auto]. match goal with |- rq_ok _ ?x _ _ => replace x with (r + b2z (h_syn h) + zlen (concat p)) by ring end. exact OK2.
Qed.

Lemma take_ack_ok iss str k c h a : sq_ok iss str k (c_sq c) -> h_acknum h = pos iss a -> zlen str + 1 - 4294967296 <= a < k + 1 + 4294967296 ->
  if h_ack h && ((k <? a) && (a <=? zlen str)) then
    exists q', take_ack c h = Some (set_sq (set_syn_acked c) q') /\ sq_ok iss str a q' /\ tx q' = tx (c_sq c) /\ sfin q' = sfin (c_sq c)
  else take_ack c h = Some c.
Proof.
  intros OK HA B. unfold take_ack. destruct (h_ack h); cbn [andb]; [|reflexivity]. pose proof OK as [K SM ST EN FL PO UN].
  rewrite HA, ST, EN, !pos_add. change {| start := pos iss (k + 1); end_ := pos iss (zlen str + 1) |} with (rng iss (k + 1) (zlen str + 1)). rewrite contains_rng by lia.
  replace ((k + 1 <=? a) && (a <? zlen str + 1)) with ((k <? a) && (a <=? zlen str)) by (destruct (Z.ltb_spec k a), (Z.leb_spec a (zlen str)); lia).
  destruct ((k <? a) && (a <=? zlen str)) eqn:D; [|reflexivity]. destruct (Z.eqb_spec (pos iss a) (pos iss k)) as [X|_].
  { apply pos_inj in X; lia. }
  cbn [negb]. destruct (advance_start_ok iss str k (c_sq c) a OK) as (q' & E & R & T & S & _); [lia|]. cbn [c_sq set_syn_acked]. rewrite E. ob. exists q'. auto.
Qed.

Definition after_push (c : conn) (q : recvq) (sq : sendq) (acked need : bool) (win : Z) : conn :=
  {| c_local := c_local c; c_remote := c_remote c; c_sq := sq; c_win := win; c_sclosed := c_sclosed c; c_syn_acked := acked;
     c_recv := Some (q, rfin q); c_need_ack := need; c_last_adv := c_last_adv c; c_ws := c_ws c;
     c_rst_if_payload := c_rst_if_payload c; c_reset := c_reset c; c_need_rst := c_need_rst c |}.
(** The length of the receive window and the window a packet announces. *)
Definition wlen (c : conn) (buf : list Z) : Z := Z.min (Z.max 0 (100000 - zlen buf)) (recv_window_max (c_ws c)).
Definition new_win (c : conn) (h : header) : Z := if h_syn h then h_win h else Z.shiftl (h_win h) (send_shift0 (c_ws c)).
Lemma recv_window_rng c irs r buf q closed : c_recv c = Some (q, closed) -> rq_ok irs r buf q -> recv_window c = Some (rng irs r (r + wlen c buf)).
Proof. intros E OK. unfold recv_window. rewrite E, (rq_len_ok _ _ _ _ OK), (ro_end _ _ _ _ OK), pos_add. reflexivity. Qed.
Lemma max_nonneg w : 0 <= recv_window_max w.
Proof. unfold recv_window_max. apply Z.shiftl_nonneg. lia. Qed.
Lemma wlen_bounds c buf : zlen buf <= 100000 -> 0 <= wlen c buf <= 100000 - zlen buf.
Proof. intros L. unfold wlen. pose proof (max_nonneg (c_ws c)). lia. Qed.

(** What one push does to a connection that has heard a SYN: the symbols of the packet inside the
    window are [T]. *)
Inductive pushed (c : conn) (h : header) (iss : Z) (str : list sym) (k irs r : Z) (buf : list Z) (q : recvq) (a p1 : Z) (T : list sym) (ov : bool) : conn -> Z -> Prop :=
| PMiss : ov = false -> pushed c h iss str k irs r buf q a p1 T ov (set_need_ack c true) 0
| PReset : ov = true -> (c_rst_if_payload c = true /\ (exists b, In (SByte b) T) \/ rfin q = true /\ T <> [] \/ rsyn q = true /\ In SSyn T) ->
    pushed c h iss str k irs r buf q a p1 T ov (send_rst c) 0
| PTake q' sq' acked n : ov = true ->
    (c_rst_if_payload c = true -> forall b, ~ In (SByte b) T) -> (rfin q = true -> T = []) ->
    (if (p1 =? r) && negb (rfin q) then exists s b f, T = syms s b f /\ n = zlen b /\ rq_ok irs (r + zlen T) (buf ++ b) q' /\ rsyn q' = true /\ rfin q' = f /\ (s = true -> rsyn q = false)
     else q' = q /\ n = 0) ->
    (if h_ack h && ((k <? a) && (a <=? zlen str)) then sq_ok iss str a sq' /\ tx sq' = tx (c_sq c) /\ sfin sq' = sfin (c_sq c) /\ acked = true
     else sq' = c_sq c /\ acked = c_syn_acked c) ->
    pushed c h iss str k irs r buf q a p1 T ov
      (after_push c q' sq' acked ((p1 =? r) && negb (rfin q) && (0 <? zlen T) || c_need_ack c) (new_win c h)) n.

Lemma push_segment_ok c h p iss str k irs r buf q p0 a :
  c_recv c = Some (q, rfin q) -> rq_ok irs r buf q -> sq_ok iss str k (c_sq c) ->
  h_seq h = pos irs p0 -> h_acknum h = pos iss a ->
  zlen str + 1 - 4294967296 <= a < k + 1 + 4294967296 ->
  zlen (pkt_syms h p) < 4294967296 -> p0 + zlen (pkt_syms h p) - r < 4294967296 -> r + 100000 - p0 < 4294967296 ->
  (rsyn q = true \/ p0 = r /\ h_syn h = true /\ 0 < wlen c buf) ->
  (h_syn h = false /\ is_configured (c_ws c) = false /\ push_segment c h p = None) \/
  exists c' n, push_segment c h p = Some (c', n) /\
    pushed c h iss str k irs r buf q a (Z.max p0 r) (cut p0 r (r + wlen c buf) (pkt_syms h p)) (meets p0 (p0 + zlen (pkt_syms h p)) r (r + wlen c buf)) c' n.
Proof.
  intros CR OK SQ HS HA AB L S1 S2 SY. unfold push_segment. rewrite (recv_window_rng c irs r buf q (rfin q) CR OK). ob.
  pose proof (ro_small _ _ _ _ OK) as BS. pose proof (wlen_bounds c buf BS) as WB. pose proof (zlen_nonneg buf) as BN. set (w := wlen c buf) in *.
  destruct (trim_segment_ok irs r w ltac:(lia) h p p0 HS L S1 ltac:(lia)) as (o & E & R). rewrite E. ob. clear E.
  set (T := cut p0 r (r + w) (pkt_syms h p)) in *. set (ov := meets p0 (p0 + zlen (pkt_syms h p)) r (r + w)) in *.
  destruct o as [(h', p')|].
  2: { right. do 2 eexists. split; [reflexivity|]. now apply PMiss. }
  destruct R as (OV & HS' & PS & HA1 & HA2 & HW & _). rewrite CR. cbv beta iota.
  assert (TB : T = syms (h_syn h') (concat p') (h_fin h')) by (rewrite <- PS; reflexivity).
  assert (TL : zlen T <= w) by (unfold T; rewrite zlen_cut; lia).
  assert (TL2 : zlen T <= zlen (pkt_syms h p)) by (unfold T; rewrite zlen_cut; pose proof (zlen_nonneg (pkt_syms h p)); lia).
  assert (TE : zlen T = b2z (h_syn h') + zlen (concat p') + b2z (h_fin h')) by (rewrite TB; apply syms_len).
  assert (SYT : p0 = r -> h_syn h = true -> 0 < w -> In SSyn T).
  { intros -> SY' W0. unfold T, pkt_syms, syms. rewrite SY'. rewrite cut_app, cut_one. rewrite (proj2 (Z.leb_le r r)) by apply Z.le_refl.
    rewrite (proj2 (Z.ltb_lt r (r + w))) by (clear - W0; lia). cbn. auto. }
  assert (MR : r <= Z.max p0 r) by (clear; lia). assert (MT : Z.max p0 r + zlen T - r < 4294967296) by (clear - S1 S2 TL TL2 WB BN BS L; pose proof (zlen_nonneg (pkt_syms h p)); lia).
  assert (AB' := AB). clearbody T ov w. clear S1 S2.
  assert (BL : zlen (concat p') <= w) by (clear - TE TL; destruct (h_syn h'), (h_fin h'); cbn [b2z] in TE; lia).
  assert (BL' : zlen buf + zlen (concat p') <= 100000) by (clear - BL WB; lia).
  assert (PT : (exists b, In (SByte b) T) <-> concat p' <> []).
  { rewrite TB. unfold syms. split.
    - intros (b & I0). apply in_app_iff in I0. destruct I0 as [I0|I0]; [destruct (h_syn h'); cbn in I0; [destruct I0 as [I0|[]]; discriminate I0|destruct I0]|].
      apply in_app_iff in I0. destruct I0 as [I0|I0]; [|destruct (h_fin h'); cbn in I0; [destruct I0 as [I0|[]]; discriminate I0|destruct I0]].
      intros X. rewrite X in I0. destruct I0.
    - intros N. destruct (concat p') as [|b l]; [congruence|]. exists b. apply in_app_iff. right. cbn. auto. }
  assert (ST : In SSyn T <-> h_syn h' = true).
  { rewrite TB. unfold syms. split.
    - intros I0. apply in_app_iff in I0. destruct I0 as [I0|I0]; [destruct (h_syn h'); [reflexivity|destruct I0]|]. exfalso.
      apply in_app_iff in I0. destruct I0 as [I0|I0]; [|destruct (h_fin h'); cbn in I0; [destruct I0 as [I0|[]]; discriminate I0|destruct I0]].
      apply in_map_iff in I0. destruct I0 as (? & X & _). discriminate X.
    - intros ->. cbn. auto. }
  assert (NE : T <> [] <-> negb (pay_empty p') || h_syn h' || h_fin h' = true).
  { rewrite !orb_true_iff, negb_true_iff. split.
    - intros N. destruct (h_syn h') eqn:A1; [auto|]. destruct (h_fin h') eqn:A2; [auto|]. left. left. destruct (pay_empty p') eqn:A3; [|reflexivity]. exfalso. apply N.
      apply pay_empty_ok in A3. rewrite TB, A3. reflexivity.
    - intros A N. rewrite N in TE. change (zlen (@nil sym)) with 0 in TE. pose proof (zlen_nonneg (concat p')) as PN.
      assert (h_syn h' = false /\ h_fin h' = false /\ zlen (concat p') = 0) as (A1 & A2 & X) by (clear - TE PN; destruct (h_syn h'), (h_fin h'); cbn [b2z] in TE; lia).
      apply zlen_0, pay_empty_ok in X. rewrite X, A1, A2 in A. destruct A as [[A|A]|A]; discriminate A. }
  destruct (c_rst_if_payload c && negb (pay_empty p')) eqn:B1.
  { right. do 2 eexists. split; [reflexivity|]. apply PReset; [exact OV|]. left. apply andb_true_iff in B1. destruct B1 as (B1 & B2). split; [exact B1|]. apply PT. intros X.
    apply pay_empty_ok in X. rewrite X in B2. discriminate B2. }
  destruct (rfin q && (negb (pay_empty p') || h_syn h' || h_fin h')) eqn:B2.
  { right. do 2 eexists. split; [reflexivity|]. apply PReset; [exact OV|]. right. left. apply andb_true_iff in B2. destruct B2 as (B2 & B3). split; [exact B2|]. now apply NE. }
  assert (SY' : rsyn q = true \/ Z.max p0 r = r /\ h_syn h' = true).
  { destruct SY as [SY|(-> & SY & W0)]; [auto|]. right. split; [clear; lia|]. apply ST. auto. }
  destruct (take_segment_ok irs r buf q (rfin q) h' p' (Z.max p0 r) OK eq_refl HS') as (T1 & T2); [exact MR|rewrite PS; exact MT|exact BL'|exact SY'|].
  assert (NR : c_rst_if_payload c = true -> forall b, ~ In (SByte b) T).
  { intros C b I0. rewrite C in B1. cbn [andb] in B1. apply negb_false_iff, pay_empty_ok in B1. apply (proj1 PT); eauto. }
  assert (NC : rfin q = true -> T = []).
  { intros C. rewrite C in B2. cbn [andb] in B2. destruct T as [|x l]; [reflexivity|]. assert (x :: l <> []) as X by discriminate. apply NE in X. congruence. }
  destruct (negb (rfin q) && (h_syn h' && rsyn q)) eqn:B3.
  { apply andb_true_iff in B3. destruct B3 as (B3 & B4). apply negb_true_iff in B3. rewrite T1, B3, B4. ob.
    right. do 2 eexists. split; [reflexivity|]. apply PReset; [exact OV|]. right. right. apply andb_true_iff in B4. destruct B4. split; [assumption|]. now apply ST. }
  assert (exists q' n, take_segment q (rfin q) h' p' = Some (Some (q', rfin q', n)) /\ negb (rend q' =? rend q) = (Z.max p0 r =? r) && negb (rfin q) && (0 <? zlen T) /\
    (if (Z.max p0 r =? r) && negb (rfin q) then exists s b f, T = syms s b f /\ n = zlen b /\ rq_ok irs (r + zlen T) (buf ++ b) q' /\ rsyn q' = true /\ rfin q' = f /\ (s = true -> rsyn q = false)
     else q' = q /\ n = 0)) as (q' & n & TS & RE & TQ).
  { destruct ((Z.max p0 r =? r) && negb (rfin q)) eqn:B4.
    - apply andb_true_iff in B4. destruct B4 as (B4 & B5). apply Z.eqb_eq in B4. rewrite B5 in B3. cbn [andb] in B3. apply negb_true_iff in B5.
      destruct (T2 B5 B3 B4) as (q' & E' & OK' & RS & RF). exists q', (zlen (concat p')). split; [exact E'|]. rewrite PS in OK'. split.
      + rewrite (ro_end _ _ _ _ OK'), (ro_end _ _ _ _ OK). cbn [andb]. destruct (Z.ltb_spec 0 (zlen T)).
        * destruct (Z.eqb_spec (pos irs (r + zlen T)) (pos irs r)) as [X|_]; [|reflexivity]. apply pos_inj in X; clear - X H TL WB BN; lia.
        * pose proof (zlen_nonneg T). replace (r + zlen T) with r by (clear - H H0; lia). now rewrite Z.eqb_refl.
      + exists (h_syn h'), (concat p'), (h_fin h'). repeat (split; [assumption || reflexivity|]). intros X. rewrite X in B3. exact B3.
    - exists q, 0. rewrite T1. rewrite Z.eqb_refl. split; [|auto]. destruct (rfin q) eqn:RF; [reflexivity|]. cbn [negb andb] in B3. rewrite B3. rewrite andb_true_r in B4. now rewrite B4. }
  rewrite TS. ob. cbv beta iota. rewrite RE.
  set (c1 := set_recv c (Some (q', rfin q'))). set (nd := (Z.max p0 r =? r) && negb (rfin q) && (0 <? zlen T)) in *.
  set (c2 := if nd then set_need_ack c1 true else c1).
  destruct (h_syn h || is_configured (c_ws c)) eqn:CF0.
  2: { apply orb_false_iff in CF0. destruct CF0 as (CF1 & CF2). left. rewrite CF1, CF2. split; [reflexivity|]. split; [reflexivity|]. unfold send_shift.
    assert (c_ws c2 = c_ws c) as -> by (unfold c2; destruct nd; reflexivity). rewrite CF2. reflexivity. }
  apply orb_true_iff in CF0. rename CF0 into CF.
  assert (exists c3, (if h_syn h then Some (set_win c2 (h_win h')) else do s <- send_shift (c_ws c2); Some (set_win c2 (Z.shiftl (h_win h') s))) = Some c3 /\ c3 = set_win c2 (new_win c h)) as (c3 & E3 & C3).
  { unfold new_win. rewrite HW. destruct (h_syn h) eqn:HSY; [eauto|]. destruct CF as [X|CF]; [discriminate X|]. unfold send_shift.
    assert (c_ws c2 = c_ws c) as -> by (unfold c2; destruct nd; reflexivity). rewrite CF. rewrite assert_true by reflexivity. ob. eauto. }
  rewrite E3. ob. assert (SQ3 : c_sq c3 = c_sq c) by (rewrite C3; unfold c2; destruct nd; reflexivity).
  assert (SQ4 : sq_ok iss str k (c_sq c3)) by now rewrite SQ3.
  pose proof (take_ack_ok iss str k c3 h' a SQ4 ltac:(now rewrite HA2) AB') as TA. rewrite HA1 in TA.
  destruct (h_ack h && ((k <? a) && (a <=? zlen str))) eqn:AK.
  - destruct TA as (sq' & E4 & SQ' & TX & SF). rewrite E4. ob. right. do 2 eexists. split; [reflexivity|].
    assert (set_sq (set_syn_acked c3) sq' = after_push c q' sq' true (nd || c_need_ack c) (new_win c h)) as -> by (rewrite C3; unfold c2; destruct nd; reflexivity).
    apply PTake; auto. rewrite AK. rewrite SQ3 in *. auto.
  - rewrite TA. ob. right. do 2 eexists. split; [reflexivity|].
    assert (c3 = after_push c q' (c_sq c) (c_syn_acked c) (nd || c_need_ack c) (new_win c h)) as -> by (rewrite C3; unfold c2; destruct nd; reflexivity).
    apply PTake; auto. rewrite AK. auto.
Qed.

(** * Popping a packet *)
Definition after_pop (c : conn) (txn : Z) (last : Z) (ws : scaling) (rst : bool) : conn :=
  {| c_local := c_local c; c_remote := c_remote c; c_sq := set_tx (c_sq c) txn; c_win := c_win c; c_sclosed := c_sclosed c; c_syn_acked := c_syn_acked c;
     c_recv := c_recv c; c_need_ack := false; c_last_adv := Some last; c_ws := ws;
     c_rst_if_payload := c_rst_if_payload c; c_reset := c_reset c; c_need_rst := c_need_rst c && negb rst |}.
Definition scale_of (ws : scaling) : option Z := if can_send_scale ws then Some 1 else None.

Record popped (c : conn) (iss : Z) (str : list sym) (k t : Z) (c' : conn) (h : header) (p : payload) (l : Z) : Prop := {
  pp_seq : h_seq h = pos iss t;
  pp_addr : h_src h = c_local c /\ h_dst h = c_remote c;
  pp_ack : h_ack h = negb (is_none (c_recv c));
  pp_acknum : forall q cl, c_recv c = Some (q, cl) -> h_acknum h = rend q;
  pp_acknum0 : c_recv c = None -> h_acknum h = 0;
  pp_syms : pkt_syms h p = cut 0 t (t + l) str;
  pp_len : 0 <= l; pp_end : t + l <= zlen str; pp_mss : zlen (concat p) <= 1500;
  pp_win : 0 < l -> t + l <= k + c_win c;
  pp_rst : h_rst h = c_need_rst c; pp_rst0 : h_rst h = true -> l = 0;
  pp_reset : c_reset c = true -> h_rst h = true;
  pp_size : 0 <= h_win h <= 65535;
  pp_wsize : h_win h = if h_syn h then recv_window_len c else Z.shiftr (recv_window_len c) (recv_shift0 (c_ws c));
  pp_conf : h_syn h = false -> is_configured (c_ws c) = true;
  pp_scale : h_scale h = if h_syn h then scale_of (c_ws c) else None;
  pp_next : exists last ws, c' = after_pop c (pos iss (t + l)) last ws (h_rst h) /\
     (if h_syn h then sent_syn (c_ws c) (scale_of (c_ws c)) = Some ws else ws = c_ws c) }.

Section Popping.
Variables (iss : Z) (w : list Z) (sh : bool) (k t : Z) (c : conn).
Let str := stream w sh.
Hypothesis (OK : sq_ok iss str k (c_sq c)) (TX : tx (c_sq c) = pos iss t) (KT : k <= t <= zlen str) (WB : 0 <= c_win c < 2147483648).

Lemma unsent_ok : unsent_seq (c_sq c) = Some (pos iss t).
Proof using All.
  unfold unsent_seq. pose proof (next_not_transmitted_ok iss str k (c_sq c) t 0 OK TX ltac:(lia) ltac:(lia)) as N. rewrite Z.add_0_r in N.
  destruct (Z.ltb_spec t (zlen str)).
  - destruct N as (s & N & _). rewrite N. ob. reflexivity.
  - rewrite N. ob. rewrite (so_end _ _ _ _ OK). f_equal. f_equal. lia.
Qed.

Definition out_ok (o : out_seg) (l : Z) : Prop :=
  0 <= l /\ t + l <= zlen str /\ (0 < l -> t + l <= k + c_win c) /\ o_range o = rng iss t (t + l) /\
  syms (o_syn o) (concat (o_pay o)) (o_fin o) = cut 0 t (t + l) str /\ zlen (concat (o_pay o)) <= 1500 /\
  o_rst o = c_need_rst c /\ (o_rst o = true -> l = 0) /\ (c_reset c = true -> o_rst o = true) /\
  (o_syn o = false -> o_rst o = false -> is_configured (c_ws c) = true).
Lemma next_segment_inv o : next_segment c = Some (Some o) -> exists l, out_ok o l.
Proof using All.
  unfold next_segment. destruct (c_need_rst c) eqn:NR.
  { rewrite unsent_ok. ob. intros E. injection E as <-. exists 0. unfold out_ok. cbn [o_range o_syn o_fin o_rst o_pay concat]. rewrite Z.add_0_r. rewrite cut_none by lia.
    change (zlen (@nil Z)) with 0. repeat split; try lia; auto; discriminate. }
  destruct (c_reset c) eqn:RS; [discriminate|].
  destruct (next_data_ok iss w sh k t (c_win c) (c_sq c) OK TX KT WB c eq_refl eq_refl) as (d & E & D). rewrite E. ob.
  assert (EMP : forall o, (if negb (o_syn o) && negb (is_configured (c_ws c)) then Some None else Some (Some o)) = Some (Some o) -> o_syn o = false -> is_configured (c_ws c) = true).
  { intros o0 X Y. rewrite Y in X. cbn [negb andb] in X. destruct (is_configured (c_ws c)); [reflexivity|discriminate X]. }
  destruct d as [d|].
  - intros X. ob_in X. destruct (negb (o_syn d) && negb (is_configured (c_ws c))) eqn:CF; [discriminate X|]. injection X as <-.
    destruct D as (l & D1 & D2 & D3 & D4 & D5 & D6 & D7). exists l. unfold out_ok. rewrite D7, NR, RS.
    assert (CX : o_syn d = false -> is_configured (c_ws c) = true) by (intros X; rewrite X in CF; cbn [negb andb] in CF; now apply negb_false_iff in CF).
    repeat split; auto; try lia; discriminate.
  - intros X. destruct (match recv_window c with Some w0 => _ | None => Some false end) as [u|] eqn:U; [|discriminate X]. ob_in X.
    destruct (c_need_ack c || u); [|discriminate X]. rewrite unsent_ok in X. ob_in X. cbn [o_syn negb andb] in X.
    destruct (is_configured (c_ws c)) eqn:CF; [|discriminate X]. injection X as <-. exists 0. unfold out_ok. cbn [o_range o_syn o_fin o_rst o_pay concat]. rewrite Z.add_0_r. rewrite cut_none by lia.
    change (zlen (@nil Z)) with 0. rewrite NR, RS. repeat split; try lia; auto; discriminate.
Qed.

Lemma pop_inv c' o : (forall q cl, c_recv c = Some (q, cl) -> exists irs r buf, rq_ok irs r buf q) -> pop_packet c = Some (c', o) ->
  match o with
  | None => c' = c /\ next_segment c = Some None
  | Some (h, p) => exists l, popped c iss str k t c' h p l
  end.
Proof using All.
  intros RQ. unfold pop_packet. destruct (next_segment c) as [[s|]|] eqn:N; [|ob; intros E; injection E as <- <-; auto|discriminate]. ob.
  destruct (next_segment_inv s N) as (l & L0 & L1 & L2 & RG & SY & MS & RN & R0 & RR & CF).
  assert (WL : 0 <= recv_window_len c).
  { unfold recv_window_len. destruct (c_recv c) as [(q, cl)|] eqn:CR.
    - destruct (RQ q cl eq_refl) as (irs & r & buf & RO). rewrite (recv_window_rng c irs r buf q cl CR RO). pose proof (wlen_bounds c buf (ro_small _ _ _ _ RO)). rewrite len_rng; pose proof (zlen_nonneg buf); lia.
    - unfold recv_window. rewrite CR. pose proof (max_nonneg (c_ws c)). unfold RECV_BUF_MAX. lia. }
  destruct (match c_recv c with Some (q, _) => (true, rend q) | None => (false, 0) end) as (af, an) eqn:AK.
  assert (AK1 : af = negb (is_none (c_recv c))) by (destruct (c_recv c) as [(?, ?)|]; injection AK as <- _; reflexivity).
  assert (AK2 : forall q cl, c_recv c = Some (q, cl) -> an = rend q) by (intros q cl X; rewrite X in AK; injection AK as _ <-; reflexivity).
  assert (AK3 : c_recv c = None -> an = 0) by (intros X; rewrite X in AK; injection AK as _ <-; reflexivity).
  intros E.
  match type of E with (do r <- ?x; _) = _ => destruct x as [((c1, size), scale)|] eqn:X; [|discriminate E] end. ob_in E.
  assert (exists last ws, c1 = set_ws (set_last_adv c (Some last)) ws /\ 0 <= size /\
     size = (if o_syn s then recv_window_len c else Z.shiftr (recv_window_len c) (recv_shift0 (c_ws c))) /\
     scale = (if o_syn s then scale_of (c_ws c) else None) /\ (o_syn s = false -> is_configured (c_ws c) = true) /\
     (if o_syn s then sent_syn (c_ws c) (scale_of (c_ws c)) = Some ws else ws = c_ws c)) as (last & ws & C1 & SZ0 & SZ & SC & CF' & WS).
  { destruct (o_syn s).
    - destruct (recv_window_len c <=? U16_MAX); [|discriminate X]. rewrite assert_true in X by reflexivity.
      change (if can_send_scale (c_ws c) then Some (scale_shift RECV_BUF_MAX) else None) with (scale_of (c_ws c)) in X.
      destruct (sent_syn (c_ws c) (scale_of (c_ws c))) as [ws|] eqn:SS; [|discriminate X]. ob_in X. injection X as <- <- <-.
      exists (recv_window_len c), ws. repeat split; auto. discriminate.
    - unfold recv_shift in X. destruct (is_configured (c_ws c)) eqn:CC; [|discriminate X]. rewrite assert_true in X by reflexivity. ob_in X. injection X as <- <- <-.
      eexists _, (c_ws c). split; [destruct c; reflexivity|]. repeat split; auto. now apply Z.shiftr_nonneg. }
  destruct (size <=? U16_MAX) eqn:S16; [|discriminate E]. rewrite assert_true in E by reflexivity. apply Z.leb_le in S16.
  assert (Q1 : c_sq (set_need_ack c1 false) = c_sq c) by (rewrite C1; reflexivity). rewrite Q1, RG in E. cbn [start end_ rng] in E.
  rewrite (mark_ok iss str k (c_sq c) (t + l) OK) in E by lia. ob_in E.
  assert (NR1 : c_need_rst (set_sq (set_need_ack c1 false) (set_tx (c_sq c) (pos iss (t + l)))) = c_need_rst c) by (rewrite C1; reflexivity).
  match type of E with (do r <- ?x; _) = _ => assert (FX : x = Some (after_pop c (pos iss (t + l)) last ws (o_rst s))) end.
  { rewrite NR1, RN. rewrite C1. unfold after_pop. destruct (c_need_rst c) eqn:NR; [rewrite assert_true by reflexivity|]; unfold set_rst, set_sq, set_need_ack, set_ws, set_last_adv; cbn; rewrite ?NR; reflexivity. }
  rewrite FX in E. ob_in E. injection E as <- <-. exists l.
  assert (LA : c_local c1 = c_local c /\ c_remote c1 = c_remote c) by (rewrite C1; split; reflexivity). destruct LA as (LA & RA).
  constructor; cbn [h_seq h_src h_dst h_ack h_acknum h_syn h_fin h_rst h_win h_scale]; auto.
  - eexists _, _. split; [reflexivity|exact WS].
Qed.
End Popping.
