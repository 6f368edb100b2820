From Verif Require Import Base SeqModel SeqSpec SeqProofs TcpBufModel TcpBufSpec TcpBufProofs.

Definition seg_syms (s : segment) : list sym := match s with Data l => map SByte l | Syn => [SSyn] | Fin => [SFin] end.
Definition flat (l : list segment) : list sym := flat_map seg_syms l.
Lemma seg_syms_len s : zlen (seg_syms s) = seg_len s.
Proof. destruct s; cbn; [apply zlen_map|reflexivity|reflexivity]. Qed.

(** The send queue holds the part of the stream from position [k] on. *)
Record sq_ok (iss : Z) (str : list sym) (k : Z) (q : sendq) : Prop := {
  so_k : 0 <= k <= zlen str;
  so_small : zlen str - k <= 100001;
  so_start : sstart q = pos iss k;
  so_end : send_ q = pos iss (zlen str);
  so_flat : flat (segs q) = zskip k str;
  so_pos : Forall (fun s => 0 < seg_len s) (segs q);
  so_unused : 0 <= unused q }.

Lemma sq_ok_unused iss str k q u : sq_ok iss str k q -> 0 <= u -> sq_ok iss str k (set_unused q u).
Proof. intros [A B C D E F G] U. constructor; cbn; assumption. Qed.
Lemma sq_ok_tx iss str k q t : sq_ok iss str k q -> sq_ok iss str k (set_tx q t).
Proof. intros [A B C D E F G]. constructor; cbn; assumption. Qed.

Lemma add_segment_ok iss str k q s : sq_ok iss str k q -> sfin q = false -> 0 < seg_len s -> zlen str + seg_len s - k <= 100001 ->
  exists q', add_segment q s = Some q' /\ sq_ok iss (str ++ seg_syms s) k q' /\ tx q' = tx q /\
    sfin q' = (match s with Fin => true | _ => false end) /\ unused q' = unused q.
Proof.
  intros [A B C D E F G] NF L SM. unfold add_segment. rewrite NF. cbn [negb]. rewrite assert_true by reflexivity.
  destruct (Z.eqb_spec (seg_len s) 0); [lia|]. eexists. split; [reflexivity|]. split; [|cbn; destruct s; auto].
  constructor; cbn [sstart send_ segs unused]; rewrite ?zlen_app, ?seg_syms_len.
  - lia.
  - lia.
  - exact C.
  - rewrite D. apply pos_add.
  - unfold flat. rewrite flat_map_app. cbn. rewrite app_nil_r. fold (flat (segs q)). rewrite E. symmetry. apply zskip_app. lia.
  - apply Forall_app. split; [exact F|]. constructor; [exact L|constructor].
  - exact G.
Qed.

Lemma sq_new_ok iss : is_seq iss -> exists q, sq_new iss = Some q /\ sq_ok iss [SSyn] 0 q /\ tx q = pos iss 0 /\ sfin q = false.
Proof.
  intros S. unfold sq_new. destruct (add_segment_ok iss [] 0 {| segs := []; tx := iss; sstart := iss; send_ := iss; sfin := false; unused := 0 |} Syn)
    as (q & E & OK & T & Fn & _).
  - constructor; cbn [sstart send_ segs unused]; rewrite ?zlen_nil, ?(pos_0 iss S); try reflexivity; try apply Forall_nil; try lia. all: unfold zlen; cbn; lia.
  - reflexivity.
  - unfold zlen; cbn; lia.
  - unfold zlen; cbn; lia.
  - exists q. rewrite E. split; [reflexivity|]. split; [exact OK|]. rewrite T, Fn. cbn. split; [now rewrite pos_0|reflexivity].
Qed.

Lemma add_data_ok iss k : forall fuel str q reader n, sq_ok iss str k q -> sfin q = false -> 0 <= n -> (Z.to_nat n < fuel)%nat -> zlen str + n - k <= 100001 ->
  exists q' ok m, add_data fuel q reader n = Some (q', ok) /\ 0 <= m <= n /\ m <= zlen reader /\ (ok = true <-> m = n) /\ (n <= zlen reader -> ok = true) /\
    sq_ok iss (str ++ map SByte (zfirst m reader)) k q' /\ tx q' = tx q /\ sfin q' = false.
Proof.
  induction fuel as [|fuel IH]; intros str q reader n OK NF N FU SM; [lia|]. cbn [add_data]. destruct (Z.leb_spec n 0) as [Z0|P].
  { exists q, true, 0. pose proof (zlen_nonneg reader). split; [reflexivity|]. split; [lia|]. split; [lia|]. split; [lia|]. split; [reflexivity|].
    cbn [zfirst Z.to_nat firstn map]. unfold zfirst. replace (Z.to_nat 0) with 0%nat by lia. cbn [firstn map]. rewrite app_nil_r. auto. }
  set (u := if unused q =? 0 then _ else _). pose proof (so_unused _ _ _ _ OK) as U.
  assert (UP : 0 < u) by (unfold u; destruct (Z.eqb_spec (unused q) 0); lia).
  set (m := Z.min n u). assert (M : 0 < m <= n) by (unfold m; lia).
  assert (OK1 : sq_ok iss str k (set_unused q (u - m))) by (apply sq_ok_unused; [exact OK|unfold m; lia]).
  destruct (Z.ltb_spec (zlen reader) m) as [SH|EN].
  { exists (set_unused q (u - m)), false, 0. pose proof (zlen_nonneg reader). split; [reflexivity|]. split; [lia|]. split; [lia|].
    split; [split; [discriminate|lia]|]. split; [lia|].
    unfold zfirst. replace (Z.to_nat 0) with 0%nat by lia. cbn [firstn map]. rewrite app_nil_r. auto. }
  destruct (add_segment_ok iss str k (set_unused q (u - m)) (Data (zfirst m reader)) OK1) as (q1 & E1 & OK2 & T1 & F1 & _).
  - exact NF.
  - cbn. rewrite zlen_zfirst. lia.
  - cbn. rewrite zlen_zfirst. lia.
  - rewrite E1. ob. cbn [seg_syms] in OK2.
    destruct (IH _ q1 (zskip m reader) (n - m) OK2 F1 ltac:(lia) ltac:(lia)) as (q2 & ok & m2 & E2 & B2 & L2 & K2 & R2 & OK3 & T2 & F2).
    { rewrite zlen_app, zlen_map, zlen_zfirst. lia. }
    exists q2, ok, (m + m2). rewrite zlen_zskip in L2, R2. rewrite E2. split; [reflexivity|]. split; [lia|]. split; [lia|]. split; [rewrite K2; lia|].
    split; [intros X; apply R2; lia|]. split; [|split; [rewrite T2, T1; reflexivity|exact F2]].
    rewrite <- app_assoc, <- map_app in OK3. replace (zfirst (m + m2) reader) with (zfirst m reader ++ zfirst m2 (zskip m reader)); [exact OK3|].
    symmetry. rewrite (zfirst_cut m (m + m2)) by lia. f_equal. rewrite cut_of_zskip by lia. f_equal. lia.
Qed.

(** ** Acknowledging *)
Lemma flat_cons_len k str s rest : 0 <= k <= zlen str -> flat (s :: rest) = zskip k str -> seg_len s <= zlen str - k /\ flat rest = zskip (k + seg_len s) str.
Proof.
  intros K E. cbn in E. fold (flat rest) in E. pose proof (f_equal zlen E) as L. rewrite zlen_app, seg_syms_len, zlen_zskip in L.
  pose proof (zlen_nonneg (flat rest)). split; [lia|].
  assert (0 <= seg_len s) by (rewrite <- seg_syms_len; apply zlen_nonneg).
  rewrite (Z.add_comm k), <- zskip_zskip, <- E by lia. unfold zskip. rewrite skipn_app.
  rewrite skipn_all2 by (pose proof (seg_syms_len s); unfold zlen in *; lia).
  replace (Z.to_nat (seg_len s) - length (seg_syms s))%nat with 0%nat by (pose proof (seg_syms_len s); unfold zlen in *; lia). reflexivity.
Qed.

Lemma advance_loop_ok iss str a : forall fuel k q, sq_ok iss str k q -> k <= a <= zlen str -> (S (length (segs q)) < fuel)%nat ->
  exists q', advance_loop fuel q (pos iss a) = Some q' /\ sq_ok iss str a q' /\ tx q' = tx q /\ sfin q' = sfin q /\ unused q' = unused q.
Proof.
  induction fuel as [|fuel IH]; intros k q OK A FU; [lia|]. cbn [advance_loop]. pose proof OK as [K SM ST EN FL PO UN].
  rewrite ST. destruct (Z.eqb_spec (pos iss k) (pos iss a)) as [EQ|NE].
  { apply pos_inj in EQ; [|lia]. subst a. exists q. auto. }
  assert (NEka : k <> a) by (intros ->; now apply NE). rewrite pos_diff by lia.
  destruct (segs q) as [|s rest] eqn:SG.
  { cbn in FL. pose proof (f_equal zlen FL) as L. rewrite zlen_nil, zlen_zskip in L. lia. }
  destruct (flat_cons_len k str s rest K FL) as (SL & FR). inversion PO as [|? ? PS PR]; subst. cbn [length] in FU.
  destruct (Z.leb_spec (seg_len s) (a - k)) as [LE|GT].
  - rewrite pos_add. destruct (IH (k + seg_len s) (set_front q rest (pos iss (k + seg_len s)))) as (q' & E & OK' & T' & F' & U').
    + constructor; cbn [sstart send_ segs unused set_front]; auto; lia.
    + lia.
    + cbn [segs set_front]. lia.
    + exists q'. auto.
  - destruct s as [l| |]; cbn [seg_len] in *; [|lia|lia].
    assert (NZ : zlen (zskip (a - k) l) = zlen l - (a - k)) by (rewrite zlen_zskip; lia).
    rewrite NZ. destruct (Z.eqb_spec (zlen l - (a - k)) 0); [lia|]. cbn [negb]. rewrite assert_true by reflexivity. rewrite pos_add. replace (k + (a - k)) with a by lia.
    destruct fuel as [|fuel]; [lia|]. cbn [advance_loop set_front sstart]. rewrite Z.eqb_refl. eexists. split; [reflexivity|]. cbn. split; [|auto].
    constructor; cbn [sstart send_ segs unused]; auto; try lia.
    + cbn [flat flat_map seg_syms]. cbn [flat flat_map seg_syms] in FL. replace (zskip a str) with (zskip (a - k) (zskip k str)) by (rewrite zskip_zskip by lia; f_equal; lia).
      rewrite <- FL. rewrite zskip_app by (rewrite zlen_map; lia). f_equal. unfold zskip. now rewrite skipn_map.
    + constructor; [cbn; lia|assumption].
Qed.

Lemma sq_contains_pos iss str k q x : sq_ok iss str k q -> zlen str - 4294967296 <= x < k + 4294967296 ->
  sq_contains q (pos iss x) = (k <=? x) && (x <? zlen str).
Proof.
  intros [K SM ST EN FL PO UN] X. unfold sq_contains, sq_range. rewrite ST, EN. apply contains_rng; lia.
Qed.
Lemma sq_len_pos iss str k q : sq_ok iss str k q -> sq_len q = zlen str - k.
Proof. intros [K SM ST EN FL PO UN]. unfold sq_len. rewrite ST, EN. apply pos_diff. lia. Qed.

Lemma advance_start_ok iss str k q a : sq_ok iss str k q -> k <= a <= zlen str ->
  exists q', advance_start q (pos iss a) = Some q' /\ sq_ok iss str a q' /\ tx q' = tx q /\ sfin q' = sfin q /\ unused q' = unused q.
Proof.
  intros OK A. unfold advance_start. pose proof OK as [K SM ST EN FL PO UN]. rewrite (sq_contains_pos iss str k) by (assumption || lia).
  rewrite EN. rewrite assert_true.
  - eapply advance_loop_ok; eauto.
  - destruct (Z.ltb_spec a (zlen str)); [rewrite (proj2 (Z.leb_le k a)) by lia; reflexivity|].
    replace a with (zlen str) by lia. rewrite Z.eqb_refl. apply Bool.orb_true_r.
Qed.

(** ** The next segment to transmit *)
(** The number of segments that end after position [x]. *)
Fixpoint after (l : list segment) (c x : Z) : nat :=
  match l with [] => 0%nat | s :: l => Nat.add (if x <? c + seg_len s then 1%nat else 0%nat) (after l (c + seg_len s) x) end.
Lemma after_le l c x : (after l c x <= length l)%nat.
Proof. revert c. induction l as [|s l IH]; intros c; cbn; [lia|]. specialize (IH (c + seg_len s)). destruct (x <? c + seg_len s); lia. Qed.
Lemma after_mono l c x y : x <= y -> (after l c y <= after l c x)%nat.
Proof.
  intros L. revert c. induction l as [|s l IH]; intros c; cbn; [lia|]. specialize (IH (c + seg_len s)).
  destruct (Z.ltb_spec x (c + seg_len s)), (Z.ltb_spec y (c + seg_len s)); lia.
Qed.

Lemma find_segment_ok iss str x : forall l k, 0 <= k <= zlen str -> zlen str - k <= 100001 -> flat l = zskip k str -> Forall (fun s => 0 < seg_len s) l ->
  k <= x < zlen str ->
  exists s, find_segment l (pos iss k) (pos iss x) = Some s /\ 0 < seg_len s /\ x + seg_len s <= zlen str /\
    seg_syms s = cut 0 x (x + seg_len s) str /\ (after l k (x + seg_len s) < after l k x)%nat.
Proof.
  induction l as [|s l IH]; intros k K SM FL PO X.
  { cbn in FL. pose proof (f_equal zlen FL) as L. rewrite zlen_nil, zlen_zskip in L. lia. }
  destruct (flat_cons_len k str s l K FL) as (SL & FR). inversion PO as [|? ? PS PR]; subst.
  cbn [find_segment]. rewrite pos_add. change {| start := pos iss k; end_ := pos iss (k + seg_len s) |} with (rng iss k (k + seg_len s)).
  rewrite contains_rng by lia. rewrite (proj2 (Z.leb_le k x)) by lia. cbn [andb]. destruct (Z.ltb_spec x (k + seg_len s)) as [IN|OUT].
  - rewrite pos_diff by lia. eexists. split; [reflexivity|].
    assert (SC : seg_syms s = cut 0 k (k + seg_len s) str).
    { rewrite cut_of_zskip by lia. rewrite <- FL. cbn. rewrite Z.add_simpl_l. unfold zfirst. rewrite firstn_app. rewrite firstn_all2 by (pose proof (seg_syms_len s); unfold zlen in *; lia).
      replace (Z.to_nat (seg_len s) - length (seg_syms s))%nat with 0%nat by (pose proof (seg_syms_len s); unfold zlen in *; lia). now rewrite app_nil_r. }
    destruct s as [c| |]; cbn [seg_len] in *.
    + rewrite zlen_zskip. replace (Z.max 0 (zlen c - Z.max 0 (x - k))) with (k + zlen c - x) by lia. replace (x + (k + zlen c - x)) with (k + zlen c) by lia.
      split; [lia|]. split; [lia|]. split.
      * cbn [seg_syms] in SC |- *. assert (E : map SByte (zskip (x - k) c) = zskip (x - k) (map SByte c)) by (unfold zskip; now rewrite skipn_map).
        rewrite E, SC. rewrite !cut_of_zskip by lia. rewrite Z.add_simpl_l.
        unfold zskip, zfirst. rewrite skipn_firstn_comm, skipn_skipn'. f_equal; [|f_equal]; lia.
      * cbn [after seg_len]. rewrite (proj2 (Z.ltb_ge (k + zlen c) (k + zlen c))) by lia. rewrite (proj2 (Z.ltb_lt x (k + zlen c))) by lia.
        pose proof (after_mono l (k + zlen c) x (k + zlen c) ltac:(lia)). lia.
    + replace x with k in * by lia. split; [lia|]. split; [lia|]. split; [exact SC|]. cbn [after seg_len].
      rewrite (proj2 (Z.ltb_ge (k + 1) (k + 1))) by lia. rewrite (proj2 (Z.ltb_lt k (k + 1))) by lia. pose proof (after_mono l (k + 1) k (k + 1) ltac:(lia)). lia.
    + replace x with k in * by lia. split; [lia|]. split; [lia|]. split; [exact SC|]. cbn [after seg_len].
      rewrite (proj2 (Z.ltb_ge (k + 1) (k + 1))) by lia. rewrite (proj2 (Z.ltb_lt k (k + 1))) by lia. pose proof (after_mono l (k + 1) k (k + 1) ltac:(lia)). lia.
  - destruct (IH (k + seg_len s)) as (s' & F & P & B & C & AF); auto; try lia.
    exists s'. split; [exact F|]. split; [exact P|]. split; [exact B|]. split; [exact C|]. cbn [after].
    destruct (Z.ltb_spec (x + seg_len s') (k + seg_len s)); [lia|]. destruct (Z.ltb_spec x (k + seg_len s)); [lia|]. lia.
Qed.

Lemma next_not_transmitted_ok iss str k q t off : sq_ok iss str k q -> tx q = pos iss t -> k <= t + off -> t + off <= zlen str ->
  if t + off <? zlen str then
    exists s, next_not_transmitted q off = Some (Some (pos iss (t + off), s)) /\ 0 < seg_len s /\ t + off + seg_len s <= zlen str /\
      seg_syms s = cut 0 (t + off) (t + off + seg_len s) str /\ (after (segs q) k (t + off + seg_len s) < after (segs q) k (t + off))%nat
  else next_not_transmitted q off = Some None.
Proof.
  intros OK T A B. unfold next_not_transmitted. rewrite T, pos_add. pose proof OK as [K SM ST EN FL PO UN].
  rewrite (sq_contains_pos iss str k) by (assumption || lia). rewrite (proj2 (Z.leb_le k (t + off))) by lia. cbn [andb].
  destruct (Z.ltb_spec (t + off) (zlen str)); cbn [negb]; [|reflexivity]. rewrite ST.
  destruct (find_segment_ok iss str (t + off) (segs q) k) as (s & F & P & C & D & AF); auto; try lia. exists s. rewrite F. ob. auto.
Qed.

Lemma mark_ok iss str k q t : sq_ok iss str k q -> k <= t <= zlen str -> mark_as_transmitted q (pos iss t) = Some (set_tx q (pos iss t)).
Proof.
  intros OK T. unfold mark_as_transmitted. pose proof OK as [K SM ST EN FL PO UN]. rewrite (sq_contains_pos iss str k) by (assumption || lia).
  rewrite assert_true; [reflexivity|]. rewrite EN. destruct (Z.ltb_spec t (zlen str)); [rewrite (proj2 (Z.leb_le k t)) by lia; reflexivity|].
  replace t with (zlen str) by lia. rewrite Z.eqb_refl. apply Bool.orb_true_r.
Qed.

(** ** The stream *)
Lemma stream_len w s : zlen (stream w s) = 1 + zlen w + (if s then 1 else 0).
Proof. unfold stream. rewrite zlen_cons, zlen_app, zlen_map. destruct s; unfold zlen; cbn [length]; lia. Qed.
Lemma stream_nth_syn w s i : nth_error (stream w s) i = Some SSyn -> i = 0%nat.
Proof.
  destruct i; [reflexivity|]. cbn. intros E. apply nth_error_In, in_app_iff in E. destruct E as [E|E].
  - apply in_map_iff in E. destruct E as (b & E & _). discriminate E.
  - destruct s; cbn in E; [destruct E as [E|[]]; discriminate E|destruct E].
Qed.
Lemma stream_nth_fin w s i : nth_error (stream w s) i = Some SFin -> s = true /\ Z.of_nat i + 1 = zlen (stream w s).
Proof.
  rewrite stream_len. destruct i; [discriminate|]. cbn. intros E. destruct (Nat.lt_ge_cases i (length (map SByte w))) as [L|G].
  - rewrite nth_error_app1 in E by assumption. apply nth_error_In, in_map_iff in E. destruct E as (b & E & _). discriminate E.
  - rewrite nth_error_app2 in E by assumption. rewrite map_length in *. destruct s; cbn in E; [|now rewrite nth_error_nil in E || (destruct (i - length w)%nat; discriminate E)].
    destruct (i - length w)%nat eqn:D; [|destruct n; discriminate E]. unfold zlen. split; [reflexivity|lia].
Qed.
Lemma cut_nth {A} a b (l : list A) i v : 0 <= a -> nth_error (cut 0 a b l) i = Some v -> nth_error l (Z.to_nat a + i) = Some v.
Proof.
  intros P E. unfold cut in E. rewrite !Z.sub_0_r in E.
  assert (G : forall n (m : list A) j, nth_error (skipn n m) j = nth_error m (n + j)).
  { induction n; intros m j; [reflexivity|]. destruct m; cbn; [now destruct j|apply IHn]. }
  assert (F : forall n (m : list A) j w, nth_error (firstn n m) j = Some w -> nth_error m j = Some w).
  { induction n; intros m j w X; [now destruct j|]. destruct m; [exact X|]. destruct j; [exact X|]. cbn in *. eauto. }
  rewrite G in E. eapply F; eauto.
Qed.
Lemma cut_syn w s a b l : 0 <= a -> cut 0 a b (stream w s) = SSyn :: l -> a = 0.
Proof. intros P E. assert (X : nth_error (cut 0 a b (stream w s)) 0 = Some SSyn) by now rewrite E. apply cut_nth in X; [|exact P]. apply stream_nth_syn in X. lia. Qed.
Lemma cut_fin w s a b l : 0 <= a -> cut 0 a b (stream w s) = l ++ [SFin] -> s = true /\ a + zlen l + 1 = zlen (stream w s).
Proof.
  intros P E. assert (X : nth_error (cut 0 a b (stream w s)) (length l) = Some SFin) by (rewrite E, nth_error_app2, Nat.sub_diag by lia; reflexivity).
  apply cut_nth in X; [|exact P]. apply stream_nth_fin in X. destruct X as (-> & X). split; [reflexivity|]. unfold zlen at 1. lia.
Qed.
Lemma cut_len {A} a b (l : list A) : 0 <= a <= b -> b <= zlen l -> zlen (cut 0 a b l) = b - a.
Proof. intros B L. rewrite zlen_cut. lia. Qed.

(** ** The receive queue *)
(** It holds [buf], which ends at position [r]. *)
Record rq_ok (irs r : Z) (buf : list Z) (q : recvq) : Prop := {
  ro_buf : concat (rsegs q) = buf;
  ro_end : rend q = pos irs r;
  ro_start : rstart q = pos irs (r - zlen buf);
  ro_pos : Forall (fun c => 0 < zlen c) (rsegs q);
  ro_small : zlen buf <= 100000 }.

Lemma rq_len_ok irs r buf q : rq_ok irs r buf q -> rq_len q = zlen buf.
Proof. intros [A B C D E]. unfold rq_len. rewrite B, C. rewrite pos_diff; pose proof (zlen_nonneg buf); lia. Qed.

Lemma rq_new_ok irs : is_seq irs -> rq_ok irs 0 [] (rq_new irs).
Proof. intros S. constructor; cbn [rsegs rend rstart rq_new]; [reflexivity|now rewrite pos_0|unfold zlen; cbn; now rewrite pos_0|constructor|unfold zlen; cbn; lia]. Qed.
Lemma add_syn_r_ok irs r buf q : rq_ok irs r buf q -> rsyn q = false ->
  exists q', add_syn_r q = Some q' /\ rq_ok irs (r + 1) buf q' /\ rsyn q' = true /\ rfin q' = rfin q.
Proof.
  intros [A B C D E] S. unfold add_syn_r. rewrite S. cbn [negb]. rewrite assert_true by reflexivity. eexists. split; [reflexivity|]. cbn. split; [|auto].
  constructor; cbn; auto; [rewrite B; apply pos_add|rewrite C, pos_add; f_equal; lia].
Qed.
Lemma add_fin_r_ok irs r buf q : rq_ok irs r buf q -> rsyn q = true -> rfin q = false ->
  exists q', add_fin_r q = Some q' /\ rq_ok irs (r + 1) buf q' /\ rsyn q' = true /\ rfin q' = true.
Proof.
  intros [A B C D E] S F. unfold add_fin_r. rewrite S, F. cbn [negb]. rewrite !assert_true by reflexivity. eexists. split; [reflexivity|]. cbn. split; [|auto].
  constructor; cbn; auto; [rewrite B; apply pos_add|rewrite C, pos_add; f_equal; lia].
Qed.
Lemma add_r_ok irs r buf q d : rq_ok irs r buf q -> rsyn q = true -> rfin q = false -> zlen buf + zlen d <= 100000 ->
  exists q', add_r q d = Some q' /\ rq_ok irs (r + zlen d) (buf ++ d) q' /\ rsyn q' = true /\ rfin q' = false.
Proof.
  intros [A B C D E] S F L. unfold add_r. rewrite S, F. cbn [negb]. rewrite !assert_true by reflexivity. destruct (Z.eqb_spec (zlen d) 0) as [Z0|NZ].
  - rewrite Z0, Z.add_0_r. apply zlen_0 in Z0. subst d. rewrite app_nil_r. exists q. split; [reflexivity|]. split; [now constructor|auto].
  - eexists. split; [reflexivity|]. cbn. split; [|auto]. constructor; cbn.
    + rewrite concat_app. cbn. now rewrite app_nil_r, A.
    + rewrite B. apply pos_add.
    + rewrite C, zlen_app. f_equal. lia.
    + apply Forall_app. split; [exact D|]. constructor; [|constructor]. pose proof (zlen_nonneg d). lia.
    + rewrite zlen_app. lia.
Qed.

Lemma rq_pop_ok irs r buf q n : rq_ok irs r buf q -> 0 < n ->
  (buf = [] /\ rq_pop q n = Some (q, None)) \/
  exists d rest q', buf = d ++ rest /\ 0 < zlen d <= n /\ rq_pop q n = Some (q', Some d) /\ rq_ok irs r rest q' /\ rsyn q' = rsyn q /\ rfin q' = rfin q /\
    (zlen d < n -> (length (rsegs q') < length (rsegs q))%nat).
Proof.
  intros [A B C D E] N. unfold rq_pop. destruct (rsegs q) as [|c rest] eqn:SG.
  { left. cbn in A. subst buf. auto. }
  right. inversion D as [|? ? PC PR]; subst. cbn [concat] in *. destruct (Z.ltb_spec n (zlen c)) as [L|G].
  - exists (zfirst n c), (zskip n c ++ concat rest), {| rsegs := zskip n c :: rest; rstart := seq_add (rstart q) n; rend := rend q; rsyn := rsyn q; rfin := rfin q |}. assert (LF : zlen (zfirst n c) = n) by (rewrite zlen_zfirst; lia).
    split; [now rewrite app_assoc, zfirst_zskip|]. split; [lia|]. rewrite LF. destruct (Z.eqb_spec n 0); [lia|]. cbn [negb orb]. rewrite assert_true by reflexivity.
    split; [reflexivity|]. split; [|cbn; split; [reflexivity|split; [reflexivity|lia]]].
    assert (LS : zlen (zskip n c) = zlen c - n) by (rewrite zlen_zskip; lia). constructor; cbn [rsegs rend rstart].
    + reflexivity.
    + exact B.
    + rewrite C, pos_add. f_equal. rewrite !zlen_app, LS. lia.
    + constructor; [lia|exact PR].
    + rewrite !zlen_app in *. lia.
  - exists c, (concat rest), {| rsegs := rest; rstart := seq_add (rstart q) (zlen c); rend := rend q; rsyn := rsyn q; rfin := rfin q |}. split; [reflexivity|]. split; [lia|]. destruct (Z.eqb_spec (zlen c) 0); [lia|]. cbn [negb orb]. rewrite assert_true by reflexivity.
    split; [reflexivity|]. split; [|cbn; split; [reflexivity|split; [reflexivity|lia]]]. constructor; cbn [rsegs rend rstart].
    + reflexivity.
    + exact B.
    + rewrite C, pos_add. f_equal. rewrite !zlen_app. lia.
    + exact PR.
    + rewrite !zlen_app in *. pose proof (zlen_nonneg c). lia.
Qed.

(** A writer that takes everything gets the first bytes of the buffer. *)
Lemma read_loop_ok irs r : forall fuel q buf n a, rq_ok irs r buf q -> n <= U32_MAX -> (S (length (rsegs q)) < fuel)%nat -> zlen a <= n \/ n <= 0 ->
  exists q', read_loop fuel q None n a = Some (q', a ++ zfirst (n - zlen a) buf, true) /\ rq_ok irs r (zskip (n - zlen a) buf) q' /\ rsyn q' = rsyn q /\ rfin q' = rfin q.
Proof.
  induction fuel as [|fuel IH]; intros q buf n a OK NU FU AN; [lia|]. cbn [read_loop]. pose proof (zlen_nonneg a) as PA.
  assert (DONE : n <= zlen a -> a ++ zfirst (n - zlen a) buf = a /\ zskip (n - zlen a) buf = buf).
  { intros L. unfold zfirst, zskip. replace (Z.to_nat (n - zlen a)) with 0%nat by lia. cbn. now rewrite app_nil_r. }
  destruct (Z.leb_spec n (zlen a)) as [L|G].
  { destruct (DONE L) as (-> & ->). exists q. auto. }
  rewrite Z.min_l by lia. destruct (rq_pop_ok irs r buf q (n - zlen a) OK ltac:(lia)) as [(-> & E)|(d & rest & q' & -> & D & E & OK' & S' & F' & LN)].
  - rewrite E. ob. unfold zfirst, zskip. rewrite firstn_nil, skipn_nil, app_nil_r. exists q. auto.
  - rewrite E. ob. rewrite (proj2 (Z.leb_le (zlen d) (n - zlen a))) by lia. rewrite assert_true by reflexivity.
    assert (X : zfirst (n - zlen a) (d ++ rest) = d ++ zfirst (n - zlen (a ++ d)) rest /\ zskip (n - zlen a) (d ++ rest) = zskip (n - zlen (a ++ d)) rest).
    { rewrite zlen_app. unfold zfirst, zskip. rewrite firstn_app, skipn_app. rewrite firstn_all2, skipn_all2 by (unfold zlen in *; lia). cbn [app].
      replace (Z.to_nat (n - zlen a) - length d)%nat with (Z.to_nat (n - (zlen a + zlen d))) by (unfold zlen in *; lia). auto. }
    destruct X as (X1 & X2). rewrite X1, X2.
    destruct (Z.eq_dec (zlen d) (n - zlen a)) as [FULL|PART].
    + destruct fuel as [|fuel]; [lia|]. cbn [read_loop]. assert (LA : zlen (a ++ d) = n) by (rewrite zlen_app; lia). rewrite LA, Z.leb_refl.
      rewrite Z.sub_diag. unfold zfirst, zskip. replace (Z.to_nat 0) with 0%nat by lia. cbn. rewrite app_nil_r. exists q'. auto.
    + destruct (IH q' rest n (a ++ d)) as (q2 & E2 & OK2 & S2 & F2); auto.
      * specialize (LN ltac:(lia)). lia.
      * left. rewrite zlen_app. lia.
      * rewrite E2. exists q2. rewrite <- app_assoc. split; [reflexivity|]. split; [exact OK2|]. split; congruence.
Qed.
Lemma rq_read_ok irs r buf q n : rq_ok irs r buf q -> 0 <= n <= U32_MAX ->
  exists q', rq_read q None n = Some (q', zfirst n buf, true) /\ rq_ok irs r (zskip n buf) q' /\ rsyn q' = rsyn q /\ rfin q' = rfin q.
Proof.
  intros OK N. unfold rq_read, rq_is_empty. rewrite (rq_len_ok _ _ _ _ OK). destruct (Z.eqb_spec (zlen buf) 0) as [Z0|NZ].
  - apply zlen_0 in Z0. subst buf. unfold zfirst, zskip. rewrite firstn_nil, skipn_nil. exists q. auto.
  - destruct (read_loop_ok irs r (S (S (length (rsegs q)))) q buf n [] OK) as (q' & E & R); [lia|lia|rewrite ?zlen_nil; unfold zlen; cbn; lia|].
    change (zlen (@nil Z)) with 0 in *. rewrite Z.sub_0_r in *. cbn [app] in E. exists q'. auto.
Qed.
