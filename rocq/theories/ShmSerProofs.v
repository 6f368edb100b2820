(** Proofs about passing shared-memory blocks to another process. *)
From Verif Require Import Base FMap ShmModel ShmSpec ShmProofs ShmSerModel ShmSerSpec.

(** ** Numbers *)
Lemma undec_snoc c : forall l acc, undec acc (l ++ [c]) =
  match undec acc l with Some a => if is_digit c then Some (10 * a + (c - DIGIT0)) else None | None => None end.
Proof.
  induction l as [|x l IH]; intros acc; cbn.
  - destruct (is_digit c); reflexivity.
  - destruct (is_digit x); [apply IH|reflexivity].
Qed.
Lemma digit_ok n : 0 <= n < 10 -> is_digit (DIGIT0 + n) = true.
Proof. intros H. unfold is_digit. lia. Qed.

Lemma dec_ok : forall fuel n, 0 <= n < 10 ^ Z.of_nat fuel ->
  undec 0 (dec fuel n) = Some n /\ Forall (fun c => is_digit c = true) (dec fuel n)
  /\ (fuel <> O -> dec fuel n <> []).
Proof.
  induction fuel as [|fuel IH]; intros n R.
  - cbn in R. assert (n = 0) by lia. subst. cbn. repeat split; [constructor|congruence].
  - cbn [dec]. destruct (Z.ltb_spec n 10) as [L|G].
    + cbn [undec]. rewrite digit_ok by lia. repeat split.
      * f_equal. lia.
      * constructor; [apply digit_ok; lia|constructor].
      * discriminate.
    + assert (R' : 0 <= n / 10 < 10 ^ Z.of_nat fuel).
      { rewrite Nat2Z.inj_succ, Z.pow_succ_r in R by lia.
        split; [apply Z.div_pos; lia|]. apply Z.div_lt_upper_bound; lia. }
      destruct (IH _ R') as (U & D & _). pose proof (Z.mod_pos_bound n 10 ltac:(lia)) as M.
      repeat split.
      * rewrite undec_snoc, U, digit_ok by lia. f_equal. pose proof (Z.div_mod n 10 ltac:(lia)). lia.
      * apply Forall_app. split; [exact D|]. constructor; [apply digit_ok; lia|constructor].
      * intros _ E. now apply app_eq_nil in E.
Qed.

Lemma pow20 : 10 ^ Z.of_nat 20 = 100000000000000000000.
Proof. reflexivity. Qed.

Lemma display_pos n : 0 <= n <= ISIZE_MAX + 1 ->
  undec 0 (dec 20 n) = Some n /\ Forall (fun c => is_digit c = true) (dec 20 n) /\ dec 20 n <> [].
Proof.
  intros R. destruct (dec_ok 20 n) as (U & D & N); [rewrite pow20; unfold ISIZE_MAX in R; lia|].
  repeat split; try assumption. apply N. discriminate.
Qed.

Lemma parse_display n : - ISIZE_MAX - 1 <= n <= ISIZE_MAX -> parse_isize (display_isize n) = Some n.
Proof.
  intros R. unfold display_isize. destruct (Z.ltb_spec n 0) as [L|G].
  - destruct (display_pos (- n)) as (U & D & N); [lia|].
    unfold parse_isize. change (MINUS =? MINUS) with true. cbv iota.
    destruct (dec 20 (- n)) as [|c l]; [contradiction|]. rewrite U. cbn [option_map].
    replace (- - n) with n by lia. replace ((- ISIZE_MAX - 1 <=? n) && (n <=? ISIZE_MAX)) with true by lia. reflexivity.
  - destruct (display_pos n) as (U & D & N); [lia|].
    unfold parse_isize. destruct (dec 20 n) as [|c l]; [contradiction|].
    inversion D as [|? ? Dc _]; subst. unfold is_digit, DIGIT0 in Dc.
    destruct (Z.eqb_spec c MINUS) as [E|_]; [unfold MINUS in E; lia|].
    destruct (Z.eqb_spec c PLUS) as [E|_]; [unfold PLUS in E; lia|].
    rewrite U. replace ((- ISIZE_MAX - 1 <=? n) && (n <=? ISIZE_MAX)) with true by lia. reflexivity.
Qed.

Lemma display_no_semi n : - ISIZE_MAX - 1 <= n <= ISIZE_MAX -> ~ In SEMI (display_isize n).
Proof.
  intros R I. unfold display_isize in I. destruct (Z.ltb_spec n 0) as [L|G].
  - destruct (display_pos (- n)) as (_ & D & _); [lia|]. destruct I as [E|I]; [discriminate|].
    rewrite Forall_forall in D. specialize (D _ I). discriminate.
  - destruct (display_pos n) as (_ & D & _); [lia|].
    rewrite Forall_forall in D. specialize (D _ I). discriminate.
Qed.

Lemma split_once_ok sep b : forall a, ~ In sep a -> split_once sep (a ++ sep :: b) = Some (a, b).
Proof.
  induction a as [|c a IH]; intros N; cbn.
  - now rewrite Z.eqb_refl.
  - destruct (Z.eqb_spec c sep) as [->|Ne]; [exfalso; apply N; now left|].
    rewrite IH; [reflexivity|]. intros I. apply N. now right.
Qed.

(** ** Names *)
Lemma trim_ok k : forall t, ~ In 0 t -> trim_null_bytes (t ++ repeat 0 (S k)) = Some t.
Proof.
  induction t as [|c t IH]; intros N; cbn [app trim_null_bytes repeat].
  - reflexivity.
  - destruct (Z.eqb_spec c 0) as [->|_]; [exfalso; apply N; now left|].
    cbn [repeat] in IH. rewrite IH; [reflexivity|]. intros I. apply N. now right.
Qed.
Lemma firstn_repeat_le {A} (x : A) : forall n m, (n <= m)%nat -> firstn n (repeat x m) = repeat x n.
Proof. induction n as [|n IH]; intros [|m] L; cbn; try reflexivity; try lia. rewrite IH by lia. reflexivity. Qed.
Lemma into_buf_ok t : (length t <= 256)%nat -> into_buf t = t ++ repeat 0 (256 - length t).
Proof.
  intros L. unfold into_buf, PATH_BUF. rewrite firstn_app, (firstn_all2 t L). f_equal. apply firstn_repeat_le. lia.
Qed.

(** The name of the file survives the text. *)
Lemma name_text b : is_name b -> exists t, trim_null_bytes b = Some t /\ into_buf (format_buffer t) = b.
Proof.
  intros (t & L & N & ->). exists t.
  replace (256 - length t)%nat with (S (255 - length t)) by lia. split; [now apply trim_ok|].
  unfold format_buffer, FORMAT_CAP. rewrite firstn_all2 by lia. rewrite into_buf_ok by lia.
  now replace (256 - length t)%nat with (S (255 - length t)) by lia.
Qed.

Lemma text_round_trip e : is_name (se_name e) -> - ISIZE_MAX - 1 <= se_offset e <= ISIZE_MAX ->
  exists t, to_text e = Some t /\ from_text t = Some (Some e).
Proof.
  intros N R. destruct (name_text _ N) as (t & T & B). unfold to_text. rewrite T. ob.
  eexists. split; [reflexivity|]. unfold from_text. cbn [app].
  rewrite split_once_ok by now apply display_no_semi. rewrite parse_display by exact R. ob.
  rewrite B. now destruct e.
Qed.

(** The names Shadow makes are such names. *)
Lemma display_len : forall fuel n, (length (dec fuel n) <= fuel)%nat.
Proof.
  induction fuel as [|fuel IH]; intros n; cbn; [lia|]. destruct (n <? 10); cbn; [lia|].
  rewrite app_length. cbn. specialize (IH (n / 10)). lia.
Qed.
Lemma display_isize_len n : (length (display_isize n) <= 21)%nat.
Proof. unfold display_isize. destruct (n <? 0); cbn [length]; pose proof (display_len 20 n); pose proof (display_len 20 (- n)); lia. Qed.
Lemma display_nonzero n : - ISIZE_MAX - 1 <= n <= ISIZE_MAX -> ~ In 0 (display_isize n).
Proof.
  intros R I. unfold display_isize in I. destruct (Z.ltb_spec n 0) as [L|G].
  - destruct (display_pos (- n)) as (_ & D & _); [lia|]. destruct I as [E|I]; [discriminate|].
    rewrite Forall_forall in D. specialize (D _ I). discriminate.
  - destruct (display_pos n) as (_ & D & _); [lia|].
    rewrite Forall_forall in D. specialize (D _ I). discriminate.
Qed.
Lemma padded_len w n : (length (padded w n) <= w + 21)%nat.
Proof. unfold padded. rewrite app_length, repeat_length. pose proof (display_isize_len n). lia. Qed.
Lemma padded_nonzero w n : - ISIZE_MAX - 1 <= n <= ISIZE_MAX -> ~ In 0 (padded w n).
Proof.
  intros R I. unfold padded in I. apply in_app_or in I. destruct I as [I|I].
  - apply repeat_spec in I. discriminate.
  - now apply display_nonzero in I.
Qed.
Lemma prefix_nonzero : ~ In 0 PREFIX.
Proof. cbn. intros H. repeat (destruct H as [E|H]; [discriminate|]). exact H. Qed.

Lemma format_name_ok sec nsec pid :
  - ISIZE_MAX - 1 <= sec <= ISIZE_MAX -> - ISIZE_MAX - 1 <= nsec <= ISIZE_MAX -> - ISIZE_MAX - 1 <= pid <= ISIZE_MAX ->
  exists b, format_shmem_name sec nsec pid = Some b /\ is_name b.
Proof.
  intros Rs Rn Rp. unfold format_shmem_name.
  set (t := PREFIX ++ display_isize sec ++ [46] ++ padded 9 nsec ++ [45] ++ padded 10 pid).
  assert (L : (length t <= 150)%nat).
  { unfold t. rewrite !app_length. pose proof (display_isize_len sec). pose proof (padded_len 9 nsec). pose proof (padded_len 10 pid).
    change (length PREFIX) with 26%nat. cbn [length]. lia. }
  assert (N : ~ In 0 t).
  { unfold t. intros I. apply in_app_or in I. destruct I as [I|I]; [now apply prefix_nonzero|].
    apply in_app_or in I. destruct I as [I|I]; [now apply display_nonzero in I|].
    cbn [app] in I. destruct I as [I|I]; [discriminate|].
    apply in_app_or in I. destruct I as [I|I]; [now apply padded_nonzero in I|].
    destruct I as [I|I]; [discriminate|]. now apply padded_nonzero in I. }
  unfold format_buffer, FORMAT_CAP. rewrite firstn_all2 by lia. unfold buf_from_utf8_str, PATH_BUF.
  destruct (Nat.leb_spec 256 (length t)) as [G|G]; [lia|].
  eexists. split; [reflexivity|]. exists t. split; [lia|]. split; [exact N|]. apply into_buf_ok. lia.
Qed.

(** ** The list of chunks *)
Section Debug.
Variable debug : bool.
Notation CH := (CHUNK_HDR debug).
Notation BS := (BLOCK_STRUCT_NBYTES debug).

Fixpoint cchain (g : Z -> option (list Z * Z)) (p : Z) (l : list Z) : Prop :=
  match l with
  | [] => p = 0
  | c :: l => p = c /\ c <> 0 /\ exists nm nx, g c = Some (nm, nx) /\ cchain g nx l
  end.

Record cinv (f : falloc) (cl : list Z) (names : list (list Z)) : Prop := mkCinv {
  ci_chain : cchain (cmeta f) (fa_first f) cl;
  ci_nd : NoDup cl;
  ci_all : forall c nm nx, cmeta f c = Some (nm, nx) -> In c cl /\ In nm names /\ is_name nm;
  ci_uniq : forall c c' nm nx nx', cmeta f c = Some (nm, nx) -> cmeta f c' = Some (nm, nx') -> c = c' }.

Lemma cchain_ext g g' : forall l p, (forall c, In c l -> g c = g' c) -> cchain g p l -> cchain g' p l.
Proof.
  induction l as [|c l IH]; intros p H C; [exact C|]. destruct C as (E & N & nm & nx & G & C).
  split; [exact E|]. split; [exact N|]. exists nm, nx. split; [rewrite <- H; [exact G|now left]|].
  apply IH; [|exact C]. intros x I. apply H. now right.
Qed.
Lemma cchain_in g : forall l p c, cchain g p l -> In c l -> c <> 0 /\ g c <> None.
Proof.
  induction l as [|x l IH]; intros p c C I; [destruct I|]. destruct C as (E & N & nm & nx & G & C).
  destruct I as [<-|I]; [split; [exact N|congruence]|]. eapply IH; eassumption.
Qed.

Lemma cinv_kept f f' cl names : ckept f f' -> cinv f cl names -> cinv f' cl names.
Proof.
  intros (E & M) [C N A U]. constructor; [|exact N| |].
  - rewrite E. eapply cchain_ext; [|exact C]. intros c _. now rewrite M.
  - intros c nm nx. rewrite M. apply A.
  - intros c c' nm nx nx'. rewrite !M. apply U.
Qed.
Lemma cinv_more f cl names names' : incl names names' -> cinv f cl names -> cinv f cl names'.
Proof.
  intros H [C N A U]. constructor; try assumption. intros c nm nx G. destruct (A _ _ _ G) as (I1 & I2 & I3). auto.
Qed.

Lemma cinv_crel o f f' cl names : crel o f f' -> cinv f cl names -> o_base o <> 0 -> is_name (o_name o) ->
  ~ In (o_name o) names -> exists cl', cinv f' cl' (names ++ [o_name o]).
Proof.
  intros [(E & M)|(E & Fr & M)] I Nz Nm Nn.
  - exists cl. apply (cinv_more _ _ names); [apply incl_appl, incl_refl|]. apply (cinv_kept f); [split; assumption|exact I].
  - exists (o_base o :: cl). destruct I as [C N A U].
    assert (No : ~ In (o_base o) cl) by (intros I; now apply (cchain_in _ _ _ _ C) in I).
    constructor.
    + cbn [cchain]. rewrite E. split; [reflexivity|]. split; [exact Nz|]. exists (o_name o), (fa_first f).
      split; [rewrite M, Z.eqb_refl; reflexivity|]. eapply cchain_ext; [|exact C].
      intros c Ic. rewrite M. destruct (Z.eqb_spec c (o_base o)) as [->|_]; [contradiction|reflexivity].
    + now constructor.
    + intros c nm nx G. rewrite M in G. destruct (Z.eqb_spec c (o_base o)) as [->|_].
      * injection G as <- <-. split; [now left|]. split; [apply in_or_app; right; now left|exact Nm].
      * destruct (A _ _ _ G) as (I1 & I2 & I3). split; [now right|]. split; [apply in_or_app; now left|exact I3].
    + intros c c' nm nx nx' G G'. rewrite M in G, G'.
      destruct (Z.eqb_spec c (o_base o)) as [->|_], (Z.eqb_spec c' (o_base o)) as [->|_].
      * reflexivity.
      * injection G as <- _. destruct (A _ _ _ G') as (_ & I2 & _). contradiction.
      * injection G' as <- _. destruct (A _ _ _ G) as (_ & I2 & _). contradiction.
      * eapply U; eassumption.
Qed.

Lemma cmeta_get f c nm nx : cmeta f c = Some (nm, nx) ->
  exists ch, get c (m_chunks (fa_mem f)) = Some ch /\ c_name ch = nm /\ c_next ch = nx.
Proof. unfold cmeta. destruct (get c (m_chunks (fa_mem f))) as [ch|]; [|discriminate]. intros [= <- <-]. now exists ch. Qed.
Lemma get_cmeta f c ch : get c (m_chunks (fa_mem f)) = Some ch -> cmeta f c = Some (c_name ch, c_next ch).
Proof. unfold cmeta. now intros ->. Qed.

(** The walk of [serialize] finds the chunk of the block. *)
Lemma find_chunk_ok f c0 p : minv debug (fa_mem f) -> In c0 (keys (m_chunks (fa_mem f))) ->
  c0 + CH <= p < c0 + CHUNK_NBYTES ->
  forall l fuel x, cchain (cmeta f) x l -> In c0 l -> (length l <= fuel)%nat ->
  find_chunk fuel debug (fa_mem f) CHUNK_NBYTES x p = Some (Some c0).
Proof.
  intros M K R. induction l as [|c l IH]; intros fuel x C I L; [destruct I|].
  destruct C as (-> & N & nm & nx & G & C). destruct (cmeta_get _ _ _ _ G) as (ch & Gc & _ & En).
  destruct fuel as [|fuel]; [cbn in L; lia|]. cbn [find_chunk].
  destruct (Z.eqb_spec c 0) as [E|_]; [contradiction|]. rewrite Gc. ob.
  destruct ((c + CH <=? p) && (p <? c + CHUNK_NBYTES)) eqn:T.
  - f_equal. f_equal. destruct (Z.eq_dec c c0) as [E|Ne]; [exact E|exfalso].
    pose proof (mi_cdisj _ _ M c c0 (get_keys _ _ _ Gc) K Ne) as D. pose proof (CH_pos debug). unfold apart in D. lia.
  - destruct I as [<-|I]; [exfalso; lia|]. rewrite En. apply IH; [exact C|exact I|cbn in L; lia].
Qed.

Lemma block_chunk m p b : minv debug m -> get p (m_blocks m) = Some b ->
  exists c ch, get c (m_chunks m) = Some ch /\ c + CH <= p /\ p + extent b <= c + CHUNK_NBYTES
    /\ 0 < c /\ BS <= b_off b /\ 0 < b_nbytes b.
Proof.
  intros M G. destruct (mi_block _ _ M _ _ G) as (O & P & c & ch & Gc & L & U).
  destruct (mi_chunk _ _ M _ _ Gc) as (Pc & _ & _ & Cu). exists c, ch. repeat split; try assumption. lia.
Qed.

Lemma serialize_ok f fl cl names p b : finv debug f fl -> cinv f cl names -> get p (m_blocks (fa_mem f)) = Some b ->
  exists c ch, get c (m_chunks (fa_mem f)) = Some ch /\ c + CH <= p /\ p + extent b <= c + CHUNK_NBYTES
    /\ BS <= b_off b /\ 0 < b_nbytes b /\ is_name (c_name ch)
    /\ serialize debug f p = Some (mkSer (c_name ch) (p - c)).
Proof.
  intros F C G. pose proof (fi_mem _ _ _ F) as M. destruct (block_chunk _ _ _ M G) as (c & ch & Gc & L & U & Pc & O & P).
  pose proof (get_cmeta _ _ _ Gc) as Mc. destruct (ci_all _ _ _ C _ _ _ Mc) as (I1 & _ & Nm).
  exists c, ch. repeat split; try assumption.
  unfold serialize. rewrite G. ob. rewrite (fi_nbytes _ _ _ F).
  pose proof (BS_pos debug). pose proof (CH_pos debug).
  rewrite (find_chunk_ok f c p M (get_keys _ _ _ Gc)) with (l := cl).
  - ob. rewrite Gc. ob. rewrite assert_true by lia. reflexivity.
  - unfold extent in U. lia.
  - apply (ci_chain _ _ _ C).
  - exact I1.
  - enough (length cl <= length (keys (m_chunks (fa_mem f))))%nat by (unfold keys in *; rewrite map_length in *; lia).
    apply NoDup_incl_length; [apply (ci_nd _ _ _ C)|]. intros x Ix.
    destruct (cchain_in _ _ _ _ (ci_chain _ _ _ C) Ix) as (_ & Hx). unfold cmeta in Hx.
    destruct (get x (m_chunks (fa_mem f))) as [cx|] eqn:Gx; [|congruence]. eapply get_keys, Gx.
Qed.

(** ** The receiving process *)
Record vinv (f : falloc) (d : deser) (views : list Z) : Prop := mkVinv {
  vi_map : forall v c, In (v, c) (d_maps d) -> 0 < v /\ In v views /\ cmeta f c <> None;
  vi_disj : ForallOrdPairs (fun x y => apart (fst x) CHUNK_NBYTES (fst y) CHUNK_NBYTES) (d_maps d);
  vi_chunks : forall v, In v (d_chunks d) -> exists c, In (v, c) (d_maps d) }.

Lemma translate_ok : forall maps v c x, In (v, c) maps ->
  ForallOrdPairs (fun x y => apart (fst x) CHUNK_NBYTES (fst y) CHUNK_NBYTES) maps ->
  v <= x < v + CHUNK_NBYTES -> translate maps x = Some (c + (x - v)).
Proof.
  induction maps as [|[w e] maps IH]; intros v c x I D R; [destruct I|].
  inversion D as [|? ? H D']; subst. cbn [translate].
  destruct I as [E|I].
  - injection E as -> ->. replace ((v <=? x) && (x <? v + CHUNK_NBYTES)) with true by lia. reflexivity.
  - rewrite Forall_forall in H. specialize (H _ I). cbn [fst] in H. unfold apart in H.
    replace ((w <=? x) && (x <? w + CHUNK_NBYTES)) with false by lia. now apply IH.
Qed.

Lemma bytes_eqb_ok a b : bytes_eqb a b = true <-> a = b.
Proof. unfold bytes_eqb. destruct (list_eq_dec Z.eq_dec a b); split; congruence. Qed.

Lemma find_view_ok f d views nm : vinv f d views -> 
  forall vs, incl vs (d_chunks d) ->
  find_view (fa_mem f) (d_maps d) vs nm = Some None \/
  exists v c nx, find_view (fa_mem f) (d_maps d) vs nm = Some (Some v) /\ In (v, c) (d_maps d) /\ cmeta f c = Some (nm, nx).
Proof.
  intros V. induction vs as [|v vs IH]; intros H; [now left|]. cbn [find_view].
  destruct (vi_chunks _ _ _ V v) as (c & Ic); [apply H; now left|].
  destruct (vi_map _ _ _ V _ _ Ic) as (Pv & _ & Mc).
  rewrite (translate_ok _ v c v Ic (vi_disj _ _ _ V)) by (rewrite chunk_nbytes; lia). ob.
  replace (c + (v - v)) with c by lia. unfold cmeta in Mc. destruct (get c (m_chunks (fa_mem f))) as [ch|] eqn:G; [|congruence].
  ob. destruct (bytes_eqb (c_name ch) nm) eqn:B.
  - right. exists v, c, (c_next ch). split; [reflexivity|]. split; [exact Ic|]. apply bytes_eqb_ok in B. subst nm. now apply get_cmeta.
  - apply IH. intros x Ix. apply H. now right.
Qed.

Lemma open_file_ok : forall (cs : fmap Z chunk) c ch, NoDup (keys cs) -> get c cs = Some ch ->
  (forall c' ch', get c' cs = Some ch' -> c_name ch' = c_name ch -> c' = c) ->
  open_file cs (c_name ch) = Some c.
Proof.
  induction cs as [|[k v] cs IH]; intros c ch ND G U; [discriminate|]. rewrite get_cons in G. cbn [open_file].
  cbn in ND. inversion ND as [|? ? Nk ND']; subst.
  destruct (bytes_eqb (c_name v) (c_name ch)) eqn:B.
  - f_equal. apply bytes_eqb_ok in B. apply (U k v); [|exact B]. rewrite get_cons.
    destruct (eqb_ok k k); [reflexivity|contradiction].
  - destruct (eqb_ok c k) as [->|N].
    + injection G as ->. exfalso. assert (bytes_eqb (c_name ch) (c_name ch) = true) by now apply bytes_eqb_ok. congruence.
    + apply IH; [exact ND'|exact G|]. intros c' ch' G' E'. apply (U c' ch'); [|exact E'].
      rewrite get_cons. destruct (eqb_ok c' k) as [->|_]; [|exact G'].
      exfalso. apply Nk. eapply get_keys, G'.
Qed.

(** An alias: an address in a mapping of the block's chunk. *)
Definition alias_ok (f : falloc) (d : deser) (p q : Z) : Prop :=
  exists v c b, In (v, c) (d_maps d) /\ get p (m_blocks (fa_mem f)) = Some b
    /\ q = v + (p - c) /\ c + CH <= p /\ p + extent b <= c + CHUNK_NBYTES /\ BS <= b_off b /\ 0 < b_nbytes b.

Lemma deserialize_ok f fl cl names d views p b v : finv debug f fl -> cinv f cl names -> vinv f d views ->
  get p (m_blocks (fa_mem f)) = Some b -> 0 < v -> (forall w, In w views -> apart w CHUNK_NBYTES v CHUNK_NBYTES) ->
  forall e, serialize debug f p = Some e ->
  exists d' q, deserialize (fa_mem f) d e v = Some (d', q) /\ vinv f d' (views ++ [v])
    /\ alias_ok f d' p q /\ incl (d_maps d) (d_maps d').
Proof.
  intros F C V G Pv Fr e Se. destruct (serialize_ok f fl cl names p b F C G) as (c & ch & Gc & L & U & O & P & Nm & E).
  rewrite Se in E. injection E as ->. pose proof (get_cmeta _ _ _ Gc) as Mc.
  pose proof (BS_pos debug) as PB. pose proof (CH_pos debug) as PC. pose proof (fi_mem _ _ _ F) as M.
  destruct (mi_chunk _ _ M _ _ Gc) as (Pc & _).
  assert (Last : forall d' w, In (w, c) (d_maps d') -> 0 < w ->
    ForallOrdPairs (fun x y => apart (fst x) CHUNK_NBYTES (fst y) CHUNK_NBYTES) (d_maps d') ->
    (check (0 <? p - c);
     check (negb (w + (p - c) =? 0));
     do q <- translate (d_maps d') (w + (p - c));
     do b <- get q (m_blocks (fa_mem f));
     Some (d', w + (p - c))) = Some (d', w + (p - c)) /\ alias_ok f d' p (w + (p - c))).
  { intros d' w Iw Pw Dj. split.
    - rewrite assert_true by lia. rewrite assert_true by lia.
      rewrite (translate_ok _ w c _ Iw Dj) by (unfold extent in U; lia). ob.
      replace (c + (w + (p - c) - w)) with p by lia. rewrite G. ob. reflexivity.
    - exists w, c, b. repeat split; assumption. }
  unfold deserialize. cbn [se_name se_offset].
  destruct (find_view_ok f d views (c_name ch) V (d_chunks d) (incl_refl _)) as [E|(w & c' & nx & E & Iw & Mw)]; rewrite E; ob.
  - unfold map_chunk. rewrite (open_file_ok (m_chunks (fa_mem f)) c ch (mi_ndc _ _ M) Gc).
    2:{ intros c' ch' G' En. pose proof (get_cmeta _ _ _ G') as M'. rewrite En in M'. eapply (ci_uniq _ _ _ C); eassumption. }
    ob. set (maps := (v, c) :: d_maps d).
    assert (Dj : ForallOrdPairs (fun x y => apart (fst x) CHUNK_NBYTES (fst y) CHUNK_NBYTES) maps).
    { constructor; [|apply (vi_disj _ _ _ V)]. apply Forall_forall. intros [w e] Iw. cbn [fst].
      destruct (vi_map _ _ _ V _ _ Iw) as (_ & Iv & _). specialize (Fr _ Iv). unfold apart in *. lia. }
    assert (V' : forall ds, incl ds (v :: d_chunks d) -> vinv f (mkDeser ds maps) (views ++ [v])).
    { intros ds Hd. constructor; cbn [d_maps d_chunks].
      - intros w e [E2|Iw]; [injection E2 as <- <-|].
        + split; [exact Pv|]. split; [apply in_or_app; right; now left|congruence].
        + destruct (vi_map _ _ _ V _ _ Iw) as (P1 & I1 & M1). split; [exact P1|]. split; [apply in_or_app; now left|exact M1].
      - exact Dj.
      - intros w Iw. destruct (Hd _ Iw) as [<-|Iw']; [exists c; now left|].
        destruct (vi_chunks _ _ _ V _ Iw') as (e & Ie). exists e. now right. }
    destruct (length (d_chunks d) =? CHUNK_CAPACITY)%nat; ob.
    + destruct (Last (mkDeser (d_chunks d) maps) v) as (E2 & A); [now left|exact Pv|exact Dj|].
      exists (mkDeser (d_chunks d) maps), (v + (p - c)). split; [exact E2|]. split; [apply V', incl_tl, incl_refl|].
      split; [exact A|]. apply incl_tl, incl_refl.
    + destruct (Last (mkDeser (d_chunks d ++ [v]) maps) v) as (E2 & A); [now left|exact Pv|exact Dj|].
      eexists _, (v + (p - c)). split; [exact E2|]. split.
      * apply V'. intros x Ix. apply in_app_or in Ix. destruct Ix as [Ix|[<-|[]]]; [now right|now left].
      * split; [exact A|]. apply incl_tl, incl_refl.
  - assert (c' = c) by (eapply (ci_uniq _ _ _ C); eassumption). subst c'.
    destruct (vi_map _ _ _ V _ _ Iw) as (Pw & _).
    destruct (Last d w Iw Pw (vi_disj _ _ _ V)) as (E2 & A).
    exists d, (w + (p - c)). split; [exact E2|]. split; [|split; [exact A|apply incl_refl]].
    destruct V as [V1 V2 V3]. constructor; try assumption. intros x y I. destruct (V1 _ _ I) as (P1 & I1 & M1).
    split; [exact P1|]. split; [apply in_or_app; now left|exact M1].
Qed.

Lemma read_view_ok m maps v c : In (v, c) maps ->
  ForallOrdPairs (fun x y => apart (fst x) CHUNK_NBYTES (fst y) CHUNK_NBYTES) maps ->
  forall n x, v <= x -> x + Z.of_nat n <= v + CHUNK_NBYTES ->
  read_view m maps x n = Some (read_bytes m (c + (x - v)) n).
Proof.
  intros I D. induction n as [|n IH]; intros x L U; [reflexivity|]. cbn [read_view read_bytes].
  rewrite (translate_ok maps v c x I D) by lia. ob. rewrite IH by lia. ob. f_equal. f_equal.
  replace (c + (x + 1 - v)) with (c + (x - v) + 1) by lia. reflexivity.
Qed.

(** What is read through an alias is what the owner reads. *)
Lemma alias_read s fl vs used lost d views i h q : sinv debug s fl vs used lost -> vinv (sh_alloc s) d views ->
  handle_at s i = Some h -> alias_ok (sh_alloc s) d (h_block h) q ->
  alias_deref (fa_mem (sh_alloc s)) d q (h_size h) = deref h s /\ deref h s <> None.
Proof.
  intros I V Hh (v & c & b & Im & G & -> & L & U & O & P).
  rewrite hget_at in Hh. pose proof (si_val _ _ _ _ _ _ I i) as X. rewrite Hh in X. destruct X as (val & _ & Hv).
  destruct (get_ref0_ok _ _ _ _ Hv) as (b' & G' & Nb & E0). rewrite G in G'. injection G' as <-.
  destruct Hv as (_ & _ & _ & _ & _ & Pn & _). pose proof (BS_pos debug). pose proof (CH_pos debug). unfold extent in U.
  unfold deref. rewrite E0. ob. split; [|discriminate].
  unfold alias_deref. rewrite (translate_ok _ v c _ Im (vi_disj _ _ _ V)) by lia. ob.
  replace (c + (v + (h_block h - c) - v)) with (h_block h) by lia. rewrite G. ob.
  destruct (Z.eqb_spec (h_size h) 0) as [E|_]; [lia|]. rewrite Nb.
  rewrite assert_true by (rewrite Z.mod_same by lia; reflexivity). cbn [negb]. rewrite assert_true by reflexivity.
  rewrite assert_true by (rewrite Z.div_same by lia; reflexivity).
  rewrite (read_view_ok _ _ v c Im (vi_disj _ _ _ V)) by lia.
  replace (c + (v + (h_block h - c) + b_off b - v)) with (h_block h + b_off b) by lia. reflexivity.
Qed.

(** ** Histories *)
Definition dop_ok (used : list Z) (names : list (list Z)) (views : list Z) (op : dop) : Prop :=
  match op with
  | DMain op => op_ok debug used op /\ match op with SMalloc _ _ o => is_name (o_name o) /\ ~ In (o_name o) names | _ => True end
  | DSend _ v => 0 < v /\ forall w, In w views -> apart w CHUNK_NBYTES v CHUNK_NBYTES
  end.
Definition dop_base (op : dop) : list Z := match op with DMain op => op_base op | _ => [] end.
Definition dop_name (op : dop) : list (list Z) :=
  match op with DMain (SMalloc _ _ o) => [o_name o] | _ => [] end.
Definition dop_view (op : dop) : list Z := match op with DSend _ v => [v] | _ => [] end.
Fixpoint dops_ok (used : list Z) (names : list (list Z)) (views : list Z) (ops : list dop) : Prop :=
  match ops with
  | [] => True
  | op :: ops => dop_ok used names views op /\
                 dops_ok (used ++ dop_base op) (names ++ dop_name op) (views ++ dop_view op) ops
  end.

Definition dinv (s : shm) (d : deser) (vs : values) (used : list Z) (names : list (list Z)) (views : list Z) : Prop :=
  exists fl lost cl, sinv debug s fl vs used lost /\ cinv (sh_alloc s) cl names /\ vinv (sh_alloc s) d views.

Lemma cmeta_mono op f f' c : op_crel op f f' -> cmeta f c <> None -> cmeta f' c <> None.
Proof.
  intros R N. destruct op as [val a o| | |]; cbn [op_crel] in R.
  - destruct R as [(_ & M)|(_ & _ & M)]; rewrite M; [exact N|]. destruct (c =? o_base o); [discriminate|exact N].
  - destruct R as (_ & M). now rewrite M.
  - destruct R as (_ & M). now rewrite M.
  - destruct R as (_ & M). now rewrite M.
Qed.

Definition vals_after (vs : values) (op : dop) : values := match op with DMain op => vstep vs op | _ => vs end.

Definition kept_alias (s : shm) (d : deser) (s' : shm) (d' : deser) : Prop :=
  same_shape (fa_mem (sh_alloc s)) (fa_mem (sh_alloc s')) /\ incl (d_maps d) (d_maps d').

Lemma send_ok s d vs used names views i h v : dinv s d vs used names views -> handle_at s i = Some h ->
  0 < v -> (forall w, In w views -> apart w CHUNK_NBYTES v CHUNK_NBYTES) ->
  exists d' q, send debug s d i v = Some (d', Some q) /\ dinv s d' vs used names (views ++ [v])
    /\ alias_ok (sh_alloc s) d' (h_block h) q /\ incl (d_maps d) (d_maps d').
Proof.
  intros (fl & lost & cl & I & C & V) Hh Pv Fr. unfold send. rewrite Hh. rewrite hget_at in Hh.
  pose proof (si_val _ _ _ _ _ _ I i) as X. rewrite Hh in X. destruct X as (val & _ & b & G & _).
  pose proof (si_alloc _ _ _ _ _ _ I) as F.
  destruct (serialize_ok _ fl cl names _ b F C G) as (c & ch & Gc & L & U & _ & _ & Nm & E).
  pose proof (CH_pos debug) as PC. destruct (mi_block _ _ (fi_mem _ _ _ F) _ _ G) as (O & P & _). pose proof (BS_pos debug) as PB.
  destruct (text_round_trip (mkSer (c_name ch) (h_block h - c))) as (t & T1 & T2).
  { exact Nm. } { cbn [se_offset]. unfold ISIZE_MAX, extent in *. rewrite chunk_nbytes in U. lia. }
  rewrite E. ob. rewrite T1. ob. rewrite T2. ob.
  destruct (deserialize_ok _ fl cl names d views _ b v F C V G Pv Fr _ E) as (d' & q & E2 & V' & A & Inc).
  rewrite E2. ob. cbn [fst snd]. exists d', q. split; [reflexivity|]. split; [now exists fl, lost, cl|]. split; assumption.
Qed.

Lemma dstep_ok s d vs used names views op : dinv s d vs used names views -> dop_ok used names views op ->
  exists s' d', dstep debug (s, d) op = Some (s', d')
    /\ dinv s' d' (vals_after vs op) (used ++ dop_base op) (names ++ dop_name op) (views ++ dop_view op)
    /\ kept_alias s d s' d'.
Proof.
  intros I Ok. destruct op as [op|i v].
  - destruct Ok as [O1 O2]. destruct I as (fl & lost & cl & I & C & V).
    destruct (step_ok debug s fl vs used lost op I O1) as (s' & fl' & E & I' & Sh & Cr).
    exists s', d. cbn [dstep fst snd]. rewrite E. ob. split; [reflexivity|].
    cbn [vals_after dop_base dop_view]. rewrite app_nil_r.
    assert (V' : vinv (sh_alloc s') d views).
    { destruct V as [V1 V2 V3]. constructor; try assumption. intros w c Iw. destruct (V1 _ _ Iw) as (P1 & I1 & M1).
      split; [exact P1|]. split; [exact I1|]. eapply cmeta_mono; eassumption. }
    split; [|split; [exact Sh|apply incl_refl]].
    destruct op as [val a o|i|i|i k w]; cbn [op_crel dop_name dop_base op_base] in *.
    + destruct O2 as [Nm Nn]. destruct O1 as (_ & Pb & _).
      destruct (cinv_crel o _ _ cl names Cr C) as (cl' & C'); [lia|exact Nm|exact Nn|].
      now exists fl', (lost ++ op_lost s (SMalloc val a o)), cl'.
    + rewrite !app_nil_r in *. eexists fl', _, cl. split; [exact I'|]. split; [eapply cinv_kept; eassumption|exact V'].
    + rewrite !app_nil_r in *. eexists fl', _, cl. split; [exact I'|]. split; [eapply cinv_kept; eassumption|exact V'].
    + rewrite !app_nil_r in *. eexists fl', _, cl. split; [exact I'|]. split; [eapply cinv_kept; eassumption|exact V'].
  - destruct Ok as [Pv Fr]. cbn [dstep fst snd vals_after dop_base dop_name dop_view]. rewrite !app_nil_r.
    destruct (handle_at s i) as [h|] eqn:Hh.
    + destruct (send_ok s d vs used names views i h v I Hh Pv Fr) as (d' & q & E & I' & _ & Inc).
      exists s, d'. rewrite E. ob. split; [reflexivity|]. split; [exact I'|]. split; [apply same_shape_refl|exact Inc].
    + exists s, d. unfold send. rewrite Hh. ob. split; [reflexivity|]. split; [|split; [apply same_shape_refl|apply incl_refl]].
      destruct I as (fl & lost & cl & I & C & [V1 V2 V3]). exists fl, lost, cl. split; [exact I|]. split; [exact C|].
      constructor; try assumption. intros x y Ix. destruct (V1 _ _ Ix) as (P1 & I1 & M1).
      split; [exact P1|]. split; [apply in_or_app; now left|exact M1].
Qed.

Lemma drun_ok : forall ops s d vs used names views, dinv s d vs used names views -> dops_ok used names views ops ->
  exists s' d', drun debug ops (s, d) = Some (s', d')
    /\ dinv s' d' (fold_left vals_after ops vs) (used ++ flat_map dop_base ops) (names ++ flat_map dop_name ops)
            (views ++ flat_map dop_view ops)
    /\ kept_alias s d s' d'.
Proof.
  induction ops as [|op ops IH]; intros s d vs used names views I Ok.
  - exists s, d. cbn. rewrite !app_nil_r. split; [reflexivity|]. split; [exact I|]. split; [apply same_shape_refl|apply incl_refl].
  - destruct Ok as [O1 O2]. destruct (dstep_ok s d vs used names views op I O1) as (s1 & d1 & E & I1 & S1 & M1).
    destruct (IH s1 d1 _ _ _ _ I1 O2) as (s2 & d2 & E2 & I2 & S2 & M2).
    exists s2, d2. cbn [drun fold_left flat_map]. rewrite E. ob. rewrite !app_assoc. split; [exact E2|]. split; [exact I2|].
    split; [eapply same_shape_trans; eassumption|eapply incl_tran; eassumption].
Qed.

Lemma dops_ok_app : forall ops1 ops2 used names views, dops_ok used names views (ops1 ++ ops2) <->
  dops_ok used names views ops1 /\
  dops_ok (used ++ flat_map dop_base ops1) (names ++ flat_map dop_name ops1) (views ++ flat_map dop_view ops1) ops2.
Proof.
  induction ops1 as [|op ops IH]; intros ops2 used names views; cbn [app dops_ok flat_map].
  - rewrite !app_nil_r. tauto.
  - rewrite IH, !app_assoc. tauto.
Qed.

(** ** From the assumptions of the specification *)
Lemma main_bases ops : flat_map op_base (main_ops ops) = flat_map dop_base ops.
Proof.
  unfold main_ops. induction ops as [|[op|i v] ops IH]; cbn [flat_map app dop_base]; [reflexivity| |exact IH].
  now rewrite IH.
Qed.
Lemma main_names ops : flat_map (fun op => match op with SMalloc _ _ o => [o_name o] | _ => [] end) (main_ops ops) = flat_map dop_name ops.
Proof.
  unfold main_ops. induction ops as [|[op|i v] ops IH]; cbn [flat_map app dop_name]; [reflexivity| |exact IH].
  rewrite IH. now destruct op.
Qed.
Lemma main_vals : forall ops vs, fold_left vals_after ops vs = fold_left vstep (main_ops ops) vs.
Proof.
  unfold main_ops. induction ops as [|[op|i v] ops IH]; intros vs; cbn [flat_map app fold_left vals_after]; [reflexivity| |]; apply IH.
Qed.
Lemma main_app ops1 ops2 : main_ops (ops1 ++ ops2) = main_ops ops1 ++ main_ops ops2.
Proof. apply flat_map_app. Qed.

Lemma dops_ok_of : forall ops used names views,
  ops_ok debug used (main_ops ops) ->
  Forall is_name (flat_map dop_name ops) -> NoDup (flat_map dop_name ops) ->
  (forall n, In n names -> ~ In n (flat_map dop_name ops)) ->
  Forall (fun v => 0 < v) (flat_map dop_view ops) ->
  ForallOrdPairs (fun v w => apart v CHUNK_NBYTES w CHUNK_NBYTES) (flat_map dop_view ops) ->
  (forall w v, In w views -> In v (flat_map dop_view ops) -> apart w CHUNK_NBYTES v CHUNK_NBYTES) ->
  dops_ok used names views ops.
Proof.
  induction ops as [|op ops IH]; intros used names views Mo Fn Nd Di Fv Dv Dw; [exact I|].
  destruct op as [op|i v]; cbn [dops_ok dop_ok dop_base dop_name dop_view flat_map app] in *.
  - change (main_ops (DMain op :: ops)) with (op :: main_ops ops) in Mo. destruct Mo as [Mo1 Mo2].
    apply Forall_app in Fn. destruct Fn as [Fn1 Fn2]. rewrite app_nil_r. split.
    + split; [exact Mo1|]. destruct op as [val a o| | |]; try exact I. cbn [app] in *. inversion Fn1; subst.
      split; [assumption|]. intros X. apply (Di _ X). now left.
    + apply IH; try assumption.
      * now apply nodup_app_r in Nd.
      * intros n In0 Ix. apply in_app_or in In0. destruct In0 as [In0|In0].
        -- apply (Di _ In0). apply in_or_app. now right.
        -- destruct op as [val a o| | |]; try destruct In0 as [].
           ++ subst n. cbn [app] in Nd. inversion Nd; contradiction.
           ++ contradiction.
  - change (main_ops (DSend i v :: ops)) with (main_ops ops) in Mo. rewrite !app_nil_r.
    inversion Fv; subst. inversion Dv as [|? ? Dh Dt]; subst. split.
    + split; [assumption|]. intros w Iw. apply Dw; [exact Iw|now left].
    + apply IH; try assumption. intros w x Iw Ix. apply in_app_or in Iw. destruct Iw as [Iw|[<-|[]]].
      * apply Dw; [exact Iw|now right].
      * rewrite Forall_forall in Dh. now apply Dh.
Qed.

Lemma dinit_ok o : 0 < o_base o -> o_base o mod 4096 = 0 -> is_name (o_name o) ->
  dinv (shm_new debug o) deser_new [] [o_base o] [o_name o] [].
Proof.
  intros P A Nm. exists [], [], [o_base o]. split; [now apply init_ok|].
  assert (M : forall c, cmeta (sh_alloc (shm_new debug o)) c = if c =? o_base o then Some (o_name o, 0) else None).
  { intros c. unfold cmeta, shm_new, falloc_new, add_chunk. cbn [sh_alloc fa_mem write_chunk m_chunks no_memory clobber_chunks filter].
    rewrite get_cons. cbn. destruct (c =? o_base o); reflexivity. }
  split.
  - constructor.
    + cbn [cchain]. split; [reflexivity|]. split; [lia|]. exists (o_name o), 0. rewrite M, Z.eqb_refl. auto.
    + constructor; [intros []|constructor].
    + intros c nm nx. rewrite M. destruct (Z.eqb_spec c (o_base o)) as [->|N]; [|discriminate]. intros [= <- <-].
      split; [now left|]. split; [now left|exact Nm].
    + intros c c' nm nx nx'. rewrite !M. destruct (Z.eqb_spec c (o_base o)) as [->|N]; [|discriminate].
      destruct (Z.eqb_spec c' (o_base o)) as [->|N']; [reflexivity|discriminate].
  - constructor; cbn [deser_new d_maps d_chunks].
    + intros v c [].
    + constructor.
    + intros v [].
Qed.

Lemma assumptions o ops : kernel_ok o (main_ops ops) -> requests_ok debug (main_ops ops) ->
  names_ok o (main_ops ops) -> views_ok ops ->
  dinv (shm_new debug o) deser_new [] [o_base o] [o_name o] [] /\ dops_ok [o_base o] [o_name o] [] ops.
Proof.
  intros K R (Fn & Nd) (Fv & Dv). destruct (kernel_ops debug o _ K R) as (P & A & Ok).
  unfold file_names in *. rewrite main_names in *. inversion Fn as [|? ? N1 N2]; subst. inversion Nd as [|? ? D1 D2]; subst.
  split; [now apply dinit_ok|]. apply dops_ok_of; try assumption.
  - intros n [<-|[]]. exact D1.
  - intros w v [].
Qed.

(** ** The property *)
Lemma alias_follows o ops1 i v ops2 s1 d1 : 
  let ops := ops1 ++ DSend i v :: ops2 in
  kernel_ok o (main_ops ops) -> requests_ok debug (main_ops ops) -> names_ok o (main_ops ops) -> views_ok ops ->
  drun debug ops1 (shm_new debug o, deser_new) = Some (s1, d1) ->
  forall h, handle_at s1 i = Some h ->
  exists d q, send debug s1 d1 i v = Some (d, Some q) /\
  exists s2 d2, drun debug ops2 (s1, d) = Some (s2, d2) /\
    (handle_at s2 i = Some h -> exists val, value_of (vrun (main_ops ops)) i = Some val /\
       alias_deref (fa_mem (sh_alloc s2)) d2 q (h_size h) = Some val).
Proof.
  cbv zeta. intros K R Nm Vw E1 h Hh. destruct (assumptions o _ K R Nm Vw) as (I0 & Ok).
  apply dops_ok_app in Ok. destruct Ok as [Ok1 Ok2].
  destruct (drun_ok ops1 _ _ _ _ _ _ I0 Ok1) as (s1' & d1' & E1' & I1 & _).
  rewrite E1 in E1'. injection E1' as <- <-. destruct Ok2 as [[Pv Fr] Ok2].
  destruct (send_ok _ _ _ _ _ _ i h v I1 Hh Pv Fr) as (d & q & Es & Id & Al & _).
  exists d, q. split; [exact Es|]. cbn [dop_base dop_name dop_view] in Ok2. rewrite !app_nil_r in Ok2.
  destruct (drun_ok ops2 _ _ _ _ _ _ Id Ok2) as (s2 & d2 & E2 & I2 & Sh & Mp).
  exists s2, d2. split; [exact E2|]. intros Hh2.
  destruct I2 as (fl & lost & cl & I & C & V).
  assert (Al2 : alias_ok (sh_alloc s2) d2 (h_block h) q).
  { destruct Al as (w & c & b & Im & G & Eq & L & U & O & P). destruct (Sh _ _ G) as (b' & G' & Nb & Ob).
    exists w, c, b'. unfold extent in *. rewrite Nb, Ob. repeat split; try assumption. now apply Mp. }
  destruct (alias_read _ _ _ _ _ _ _ i h q I V Hh2 Al2) as (Ea & _).
  pose proof (si_val _ _ _ _ _ _ I i) as X. rewrite hget_at in Hh2. rewrite Hh2 in X. destruct X as (val & Ev & Hv).
  exists val. split.
  - unfold vrun. rewrite <- main_vals. rewrite fold_left_app. exact Ev.
  - rewrite Ea. unfold deref. destruct (get_ref0_ok _ _ _ _ Hv) as (b & G & Nb & E0). rewrite E0. ob.
    destruct Hv as (b' & G' & _ & _ & _ & _ & _ & L & Rd). rewrite G in G'. injection G' as <-.
    rewrite L, Nat2Z.id. now rewrite Rd.
Qed.

Lemma sends_run o ops : kernel_ok o (main_ops ops) -> requests_ok debug (main_ops ops) ->
  names_ok o (main_ops ops) -> views_ok ops -> exists s d, drun debug ops (shm_new debug o, deser_new) = Some (s, d).
Proof.
  intros K R Nm Vw. destruct (assumptions o _ K R Nm Vw) as (I0 & Ok).
  destruct (drun_ok ops _ _ _ _ _ _ I0 Ok) as (s & d & E & _). now exists s, d.
Qed.
End Debug.
