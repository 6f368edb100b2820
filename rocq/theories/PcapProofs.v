(** Packet captures: proofs for [PcapProps]. *)
From Verif Require Import Base PcapModel PcapSpec.

Lemma le16_ex x : u16 x -> exists a b, le16 x = [a; b] /\ a + 256 * b = x.
Proof.
  intros H. unfold u16 in H. eexists _, _. split; [reflexivity|].
  Z.to_euclidean_division_equations. lia.
Qed.

Lemma be16_ex x : u16 x -> exists a b, be16 x = [a; b] /\ 256 * a + b = x.
Proof.
  intros H. unfold u16 in H. eexists _, _. split; [reflexivity|].
  Z.to_euclidean_division_equations. lia.
Qed.

Lemma bytes4 x : u32 x ->
  x mod 256 + 256 * (x / 256 mod 256) + 65536 * (x / 65536 mod 256 + 256 * (x / 16777216 mod 256)) = x.
Proof.
  intros H. unfold u32 in H.
  replace (x / 65536) with (x / 256 / 256) by (rewrite Z.div_div by lia; reflexivity).
  replace (x / 16777216) with (x / 256 / 256 / 256) by (rewrite !Z.div_div by lia; reflexivity).
  Z.to_euclidean_division_equations. lia.
Qed.

Lemma le32_ex x : u32 x ->
  exists a b c d, le32 x = [a; b; c; d] /\ a + 256 * b + 65536 * (c + 256 * d) = x.
Proof.
  intros H. eexists _, _, _, _. split; [reflexivity|]. apply bytes4, H.
Qed.

Lemma be32_ex x : u32 x ->
  exists a b c d, be32 x = [a; b; c; d] /\ 65536 * (256 * a + b) + (256 * c + d) = x.
Proof.
  intros H. eexists _, _, _, _. split; [reflexivity|]. pose proof (bytes4 x H). lia.
Qed.

Lemma len_app a b : len (a ++ b) = len a + len b.
Proof. unfold len. rewrite app_length. lia. Qed.

Lemma len_nonneg a : 0 <= len a.
Proof. unfold len. lia. Qed.

Lemma payload_len_concat chunks : payload_len chunks = len (concat chunks).
Proof.
  assert (G : forall l acc, fold_left (fun acc x => acc + len x) l acc = acc + len (concat l)).
  { induction l as [|x l IH]; intros acc; simpl; [unfold len; simpl; lia|].
    rewrite IH, len_app. lia. }
  unfold payload_len. rewrite G. lia.
Qed.

(** ** The packets *)
Lemma land_63 x : Z.land x 63 = x mod 64.
Proof. change 63 with (Z.ones 6). rewrite Z.land_ones by lia. reflexivity. Qed.

Ltac bytes H x := let a := fresh "b" in let b := fresh "b" in let E := fresh "E" in let V := fresh "V" in
  destruct (be16_ex x H) as (a & b & E & V); rewrite E; clear E.
Ltac bytes4 H x :=
  let a := fresh "b" in let b := fresh "b" in let c := fresh "b" in let d := fresh "b" in
  let E := fresh "E" in let V := fresh "V" in
  destruct (be32_ex x H) as (a & b & c & d & E & V); rewrite E; clear E.

Lemma display_law p : wf p ->
  exists pieces, display p = Some pieces /\ dissect (concat pieces) = Some (told p)
    /\ len (concat pieces) = packet_len p.
Proof.
  destruct p as [src dst d]. intros (Hs & Hd & H). simpl in Hs, Hd. unfold display, told.
  destruct d as [h chunks|sp dp payload]; cbn [p_data p_src p_dst] in *.
  - destruct h as [ts td tf tq ta tw sc].
    destruct H as (H1 & H2 & H3 & H4 & H5 & H6 & H7 & H8).
    cbn [t_src t_dst t_flags t_seq t_ack t_window t_scale] in *.
    pose proof (len_nonneg (concat chunks)) as L0.
    remember (concat chunks) as pay eqn:Ep.
    assert (P : exists k, packet_len (Packet src dst (Tcp (TcpHeader ts td tf tq ta tw sc) chunks))
                = 40 + k + len pay /\ k = match sc with Some _ => 4 | None => 0 end).
    { unfold packet_len, data_len, tcp_header_len. cbn [p_data t_scale]. rewrite payload_len_concat, <- Ep.
      destruct sc; eexists; split; try reflexivity; simpl; lia. }
    destruct P as (k & P & Hk). rewrite P.
    rewrite assert_true by (destruct sc; cbv iota in *; lia).
    unfold tcp_bytes. cbn [t_scale]. cbv zeta.
    destruct sc as [s|]; subst k; cbv iota in H8.
    + change (len [3; 3; s] mod 4 =? 0) with false. cbv iota.
      change ([3; 3; s] ++ repeat 0 (Z.to_nat (4 - len [3; 3; s] mod 4))) with [3; 3; s; 0].
      change (tcp_header_len _) with 24. change (20 + len [3; 3; s; 0]) with 24.
      rewrite !assert_true by reflexivity. ob. eexists. split; [reflexivity|].
      rewrite land_63. unfold protocol. cbn [t_src t_dst t_flags t_seq t_ack t_window].
      rewrite concat_app, concat_app, <- Ep.
      assert (Hp : u16 (40 + 4 + len pay)) by (unfold u16; lia).
      bytes Hp (40 + 4 + len pay). bytes4 Hs src. bytes4 Hd dst. bytes H1 ts. bytes H2 td.
      bytes4 H4 tq. bytes4 H5 ta. bytes H6 tw.
      change (be16 0) with [0; 0]. change (be16 16384) with [64; 0].
      change (24 / 4 * 16 mod 256) with 96. generalize (tf mod 64). intros fl.
      cbn [concat app]. split.
      * unfold dissect, get_be32, get_be16, at_. cbn [nth Nat.add].
        change (Z.to_nat (69 mod 16 * 4)) with 20%nat. cbn [skipn nth].
        change (96 / 16 * 4) with 24.
        replace ((_ : bool) && _ && _ && _ && _) with true.
        2:{ symmetry. rewrite !andb_true_iff. unfold len in *. cbn [length].
            repeat split; try reflexivity; lia. }
        change (6 =? 6) with true. cbv iota.
        replace ((20 <=? 24) && _) with true.
        2:{ symmetry. rewrite !andb_true_iff. unfold len in *. cbn [length].
            repeat split; try reflexivity; lia. }
        change (Z.to_nat 24 - 20)%nat with 4%nat. change (Z.to_nat 24) with 24%nat.
        cbn [firstn skipn scale_of]. ob. repeat f_equal; lia.
      * unfold len in *. cbn [length]. lia.
    + change (len [] mod 4 =? 0) with true. cbv iota.
      change (tcp_header_len _) with 20. change (20 + len []) with 20.
      rewrite !assert_true by reflexivity. ob. eexists. split; [reflexivity|].
      rewrite land_63. unfold protocol. cbn [t_src t_dst t_flags t_seq t_ack t_window].
      rewrite concat_app, concat_app, <- Ep.
      assert (Hp : u16 (40 + 0 + len pay)) by (unfold u16; lia).
      bytes Hp (40 + 0 + len pay). bytes4 Hs src. bytes4 Hd dst. bytes H1 ts. bytes H2 td.
      bytes4 H4 tq. bytes4 H5 ta. bytes H6 tw.
      change (be16 0) with [0; 0]. change (be16 16384) with [64; 0].
      change (20 / 4 * 16 mod 256) with 80. generalize (tf mod 64). intros fl.
      cbn [concat app]. split.
      * unfold dissect, get_be32, get_be16, at_. cbn [nth Nat.add].
        change (Z.to_nat (69 mod 16 * 4)) with 20%nat. cbn [skipn nth].
        change (80 / 16 * 4) with 20.
        replace ((_ : bool) && _ && _ && _ && _) with true.
        2:{ symmetry. rewrite !andb_true_iff. unfold len in *. cbn [length].
            repeat split; try reflexivity; lia. }
        change (6 =? 6) with true. cbv iota.
        replace ((20 <=? 20) && _) with true.
        2:{ symmetry. rewrite !andb_true_iff. unfold len in *. cbn [length].
            repeat split; try reflexivity; lia. }
        change (Z.to_nat 20 - 20)%nat with 0%nat. change (Z.to_nat 20) with 20%nat.
        cbn [firstn skipn scale_of]. ob. repeat f_equal; lia.
      * unfold len in *. cbn [length]. lia.
  - destruct H as (H1 & H2 & H8). pose proof (len_nonneg payload) as L0.
    assert (P : packet_len (Packet src dst (Udp sp dp payload)) = 28 + len payload).
    { unfold packet_len, data_len. cbn [p_data]. lia. }
    rewrite P. rewrite assert_true by lia. unfold udp_bytes. rewrite assert_true by lia. ob.
    eexists. split; [reflexivity|]. unfold protocol.
    assert (Hp : u16 (28 + len payload)) by (unfold u16; lia).
    assert (Hq : u16 (8 + len payload)) by (unfold u16; lia).
    bytes Hp (28 + len payload). bytes4 Hs src. bytes4 Hd dst. bytes H1 sp. bytes H2 dp.
    bytes Hq (8 + len payload).
    change (be16 0) with [0; 0]. change (be16 16384) with [64; 0].
    cbn [concat app]. rewrite app_nil_r. split.
    + unfold dissect, get_be32, get_be16, at_. cbn [nth Nat.add].
      change (Z.to_nat (69 mod 16 * 4)) with 20%nat. cbn [skipn nth].
      replace ((_ : bool) && _ && _ && _ && _) with true.
      2:{ symmetry. rewrite !andb_true_iff. unfold len in *. cbn [length].
          repeat split; try reflexivity; lia. }
      change (17 =? 6) with false. change (17 =? 17) with true. cbv iota.
      replace (_ && _) with true.
      2:{ symmetry. rewrite !andb_true_iff. unfold len in *. cbn [length].
          repeat split; try reflexivity; lia. }
      repeat f_equal; lia.
    + unfold len in *. cbn [length]. lia.
Qed.

(** ** The file *)
Lemma put_end bs f : f_pos f = len (f_bytes f) ->
  put bs f = File (f_bytes f ++ bs) (len (f_bytes f ++ bs)).
Proof.
  destruct f as [b p]. unfold put. cbn [f_pos f_bytes]. intros ->. f_equal.
  - rewrite firstn_all2 by (unfold len; lia). rewrite skipn_all2 by (unfold len; lia).
    rewrite app_nil_r. reflexivity.
  - rewrite len_app. reflexivity.
Qed.

Lemma put_over A bs old B p : p = len A -> length old = length bs ->
  f_bytes (put bs (File (A ++ old ++ B) p)) = A ++ bs ++ B.
Proof.
  intros -> L. unfold put. cbn [f_pos f_bytes]. f_equal; [|f_equal].
  - rewrite firstn_app. rewrite firstn_all2 by (unfold len; lia).
    replace (Z.to_nat (len A) - length A)%nat with 0%nat by (unfold len; lia).
    rewrite app_nil_r. reflexivity.
  - rewrite app_assoc, skipn_app, skipn_all2 by (rewrite app_length; unfold len; lia).
    replace (_ - _)%nat with 0%nat by (rewrite app_length; unfold len; lia). reflexivity.
Qed.

Lemma give_end pieces : forall limit f, 0 <= limit -> f_pos f = len (f_bytes f) ->
  give limit pieces f
  = File (f_bytes f ++ firstn (Z.to_nat limit) (concat pieces))
         (len (f_bytes f ++ firstn (Z.to_nat limit) (concat pieces))).
Proof.
  induction pieces as [|bs rest IH]; intros limit f L E; cbn [give concat].
  - rewrite firstn_nil, app_nil_r, <- E. destruct f; reflexivity.
  - rewrite firstn_app. destruct (Z.min (len bs) limit <? len bs) eqn:Q.
    + apply Z.ltb_lt in Q. replace (Z.min (len bs) limit) with limit by lia.
      replace (Z.to_nat limit - length bs)%nat with 0%nat by (unfold len in Q; lia).
      rewrite put_end by exact E. rewrite firstn_O, app_nil_r. reflexivity.
    + apply Z.ltb_ge in Q. replace (Z.min (len bs) limit) with (len bs) by lia.
      rewrite put_end by exact E.
      rewrite !firstn_all2 with (l := bs) by (unfold len in *; lia).
      rewrite IH by (first [lia|reflexivity]). cbn [f_bytes].
      replace (Z.to_nat (limit - len bs)) with (Z.to_nat limit - length bs)%nat by (unfold len; lia).
      rewrite app_assoc. reflexivity.
Qed.

(** a record as bytes *)
Definition record_bytes (limit sec usec orig : Z) (whole : list Z) : list Z :=
  le32 sec ++ le32 usec ++ le32 (len (firstn (Z.to_nat limit) whole)) ++ le32 orig
  ++ firstn (Z.to_nat limit) whole.

Lemma len_firstn limit l : 0 <= limit -> len (firstn (Z.to_nat limit) l) = Z.min limit (len l).
Proof. intros H. unfold len. rewrite firstn_length. lia. Qed.

Lemma write_packet_end limit sec usec orig pieces f :
  0 <= limit -> f_pos f = len (f_bytes f) ->
  let bs := f_bytes f ++ record_bytes limit sec usec orig (concat pieces) in
  write_packet limit sec usec orig pieces f = Some (File bs (len bs)).
Proof.
  intros L E bs. unfold write_packet. cbv zeta.
  rewrite (put_end (le32 sec)) by exact E.
  rewrite (put_end (le32 usec)) by reflexivity.
  rewrite (put_end (le32 0)) by reflexivity.
  rewrite (put_end (le32 orig)) by reflexivity.
  rewrite give_end by (first [exact L|reflexivity]).
  cbn [f_pos f_bytes]. set (w := firstn (Z.to_nat limit) (concat pieces)).
  assert (Lw : len w = Z.min limit (len (concat pieces))) by (apply len_firstn, L).
  rewrite (len_app _ w).
  replace (len ((((f_bytes f ++ le32 sec) ++ le32 usec) ++ le32 0) ++ le32 orig) + len w
           - len ((((f_bytes f ++ le32 sec) ++ le32 usec) ++ le32 0) ++ le32 orig)) with (len w) by lia.
  rewrite assert_true by lia. unfold seek. cbn [f_bytes].
  f_equal. f_equal.
  - rewrite <- (app_assoc _ (le32 orig) w), <- (app_assoc _ (le32 0)).
    rewrite put_over by reflexivity. unfold bs, record_bytes. fold w. rewrite <- !app_assoc. reflexivity.
  - unfold bs, record_bytes. fold w. rewrite !len_app.
    change (len (le32 (len w))) with 4. change (len (le32 0)) with 4. lia.
Qed.

Lemma write_packet_buf_end limit sec usec whole f :
  0 <= limit -> len whole <= 4294967295 -> f_pos f = len (f_bytes f) ->
  let bs := f_bytes f ++ record_bytes limit sec usec (len whole) whole in
  write_packet_buf limit sec usec whole f = Some (File bs (len bs)).
Proof.
  intros L U E bs. unfold write_packet_buf. rewrite assert_true by lia. cbv zeta.
  rewrite (put_end (le32 sec)) by exact E.
  rewrite (put_end (le32 usec)) by reflexivity.
  rewrite (put_end (le32 (Z.min (len whole) limit))) by reflexivity.
  rewrite (put_end (le32 (len whole))) by reflexivity.
  rewrite put_end by reflexivity. cbn [f_bytes].
  assert (Q : firstn (Z.to_nat (Z.min (len whole) limit)) whole = firstn (Z.to_nat limit) whole).
  { destruct (Z.le_gt_cases (len whole) limit).
    - rewrite !firstn_all2 by (unfold len in *; lia). reflexivity.
    - rewrite Z.min_r by lia. reflexivity. }
  rewrite Q. replace (Z.min (len whole) limit) with (len (firstn (Z.to_nat limit) whole))
    by (rewrite len_firstn by exact L; lia).
  unfold bs, record_bytes. rewrite <- !app_assoc. reflexivity.
Qed.

Lemma records_cons fuel limit sec usec orig whole rest rs :
  u32 sec -> u32 usec -> u32 orig -> u32 limit -> len whole = orig ->
  records fuel limit rest = Some rs ->
  records (S fuel) limit (record_bytes limit sec usec orig whole ++ rest)
  = Some (Rec sec usec orig (firstn (Z.to_nat limit) whole) :: rs).
Proof.
  intros Hs Hu Ho Hl W R. unfold record_bytes.
  assert (Lw : len (firstn (Z.to_nat limit) whole) = Z.min limit (len whole))
    by (apply len_firstn; unfold u32 in Hl; lia).
  set (w := firstn (Z.to_nat limit) whole) in *.
  pose proof (len_nonneg whole) as N.
  assert (Hw : u32 (len w)) by (unfold u32 in *; lia).
  destruct (le32_ex _ Hs) as (a0 & a1 & a2 & a3 & E & V0). rewrite E. clear E.
  destruct (le32_ex _ Hu) as (a4 & a5 & a6 & a7 & E & V1). rewrite E. clear E.
  destruct (le32_ex _ Hw) as (a8 & a9 & a10 & a11 & E & V2). rewrite E. clear E.
  destruct (le32_ex _ Ho) as (a12 & a13 & a14 & a15 & E & V3). rewrite E. clear E.
  rewrite <- !app_assoc. cbn [app]. cbn [records].
  unfold get_le32, get_le16, at_. cbn [nth Nat.add].
  rewrite V0, V1, V2, V3.
  replace (_ && _ && _) with true.
  2:{ symmetry. rewrite !andb_true_iff, !Z.leb_le. unfold len in *. cbn [length].
      rewrite app_length. unfold u32 in *. lia. }
  assert (Z.to_nat (len w) = length w) as -> by (unfold len; lia).
  cbn [skipn Nat.add].
  rewrite skipn_app, skipn_all, Nat.sub_diag. cbn [skipn app]. rewrite R. ob.
  rewrite firstn_app, firstn_all, Nat.sub_diag, firstn_O, app_nil_r. reflexivity.
Qed.

Lemma time_law now : 0 <= now -> now < 4294967296 * 1000000000 ->
  Z.min (now / 1000000000) 4294967295 * 1000000 + now / 1000 mod 1000000 = now / 1000.
Proof.
  intros H L.
  assert (now / 1000000000 < 4294967296) by (apply Z.div_lt_upper_bound; lia).
  rewrite Z.min_l by lia.
  replace (now / 1000000000) with (now / 1000 / 1000000) by (rewrite Z.div_div by lia; reflexivity).
  pose proof (Z.div_mod (now / 1000) 1000000). lia.
Qed.

Lemma packet_len_wf p : wf p -> 0 <= packet_len p <= 65535.
Proof.
  destruct p as [s d [h ch|sp dp pl]]; intros (_ & _ & H); unfold packet_len, data_len; cbn [p_data] in *.
  - destruct H as (_ & _ & _ & _ & _ & _ & _ & H). rewrite payload_len_concat.
    pose proof (len_nonneg (concat ch)). unfold tcp_header_len. destruct (t_scale h).
    + change ((20 + 3) mod 4 =? 0) with false. cbv iota. change (4 - (20 + 3) mod 4) with 1. lia.
    + change ((20 + 0) mod 4 =? 0) with true. cbv iota. lia.
  - destruct H as (_ & _ & H). pose proof (len_nonneg pl). lia.
Qed.

Lemma captures_law limit : u32 limit -> forall ps f,
  f_pos f = len (f_bytes f) -> Forall (fun x => 0 <= fst x /\ wf (snd x)) ps ->
  exists bs rs, captures limit ps f = Some (File (f_bytes f ++ bs) (len (f_bytes f ++ bs)))
    /\ Forall2 (says limit) ps rs
    /\ forall fuel, (length bs <= fuel)%nat -> records fuel limit bs = Some rs.
Proof.
  intros Hl. induction ps as [|[now p] ps IH]; intros f E F.
  - exists [], []. rewrite app_nil_r, <- E. split; [destruct f; reflexivity|]. split; [constructor|].
    intros [|fuel] _; reflexivity.
  - apply Forall_cons_iff in F. destruct F as [[T W] F]. cbn [fst snd] in T, W.
    cbn [captures]. unfold capture.
    destruct (display_law p W) as (pieces & D & S & L). rewrite D. ob.
    pose proof (packet_len_wf p W) as B.
    rewrite write_packet_end by (first [unfold u32 in Hl; lia|exact E]). ob.
    rewrite (Z.min_l (packet_len p)) by lia.
    set (r := record_bytes _ _ _ _ _).
    destruct (IH (File (f_bytes f ++ r) (len (f_bytes f ++ r))) eq_refl F) as (bs & rs & C & A & R).
    cbn [f_bytes] in C. exists (r ++ bs).
    exists (Rec (Z.min (now / 1000000000) 4294967295) (now / 1000 mod 1000000) (packet_len p)
                (firstn (Z.to_nat limit) (concat pieces)) :: rs).
    split; [rewrite C, <- !app_assoc; reflexivity|]. split.
    + constructor; [|exact A]. cbn [c_usec c_sec fst].
      split; [apply Z.mod_pos_bound; lia|]. split; [apply time_law; exact T|].
      exists (concat pieces). cbn [snd c_orig c_bytes]. repeat split; auto; lia.
    + intros fuel Q. destruct fuel as [|fuel].
      { exfalso. rewrite app_length in Q. unfold r, record_bytes in Q. rewrite app_length in Q. simpl in Q. lia. }
      unfold r. apply records_cons; auto.
      * unfold u32. pose proof (Z.div_pos now 1000000000). lia.
      * unfold u32. pose proof (Z.mod_pos_bound (now / 1000) 1000000). lia.
      * unfold u32. lia.
      * apply R. rewrite app_length in Q. unfold r, record_bytes in Q. rewrite app_length in Q.
        simpl length in Q at 1. lia.
Qed.

Lemma pcap_new_eq limit :
  pcap_new limit = File ([212; 195; 178; 161; 2; 0; 4; 0; 0; 0; 0; 0; 0; 0; 0; 0] ++ le32 limit ++ [101; 0; 0; 0]) 24.
Proof. reflexivity. Qed.

Lemma file_law limit ps : u32 limit -> Forall (fun x => 0 <= fst x /\ wf (snd x)) ps ->
  exists f rs, captures limit ps (pcap_new limit) = Some f
    /\ parse (f_bytes f) = Some (limit, rs) /\ Forall2 (says limit) ps rs.
Proof.
  intros Hl F. destruct (captures_law limit Hl ps (pcap_new limit) eq_refl F) as (bs & rs & C & A & R).
  eexists _, rs. split; [exact C|]. split; [|exact A]. cbn [f_bytes].
  rewrite pcap_new_eq. cbn [f_bytes].
  destruct (le32_ex _ Hl) as (a0 & a1 & a2 & a3 & E & V). rewrite E. clear E C.
  cbn [app]. unfold parse, get_le32, get_le16, at_. cbn [nth Nat.add].
  rewrite V. replace (_ && _ && _ && _ && _ && _) with true.
  2:{ symmetry. rewrite !andb_true_iff, !Z.leb_le. unfold len. cbn [length].
      repeat split; try reflexivity. lia. }
  cbn [skipn]. rewrite R by (cbn [length]; lia). ob. reflexivity.
Qed.

Lemma uncut_law limit x r : says limit x r -> c_orig r <= limit ->
  dissect (c_bytes r) = Some (told (snd x)).
Proof.
  intros (_ & _ & w & D & L & _ & ->) H. rewrite firstn_all2 by (unfold len in L; lia). exact D.
Qed.

Lemma whole_law limit ps : 65535 <= limit < 4294967296 ->
  Forall (fun x => 0 <= fst x /\ wf (snd x)) ps ->
  exists f rs, captures limit ps (pcap_new limit) = Some f
    /\ parse (f_bytes f) = Some (limit, rs)
    /\ map (fun r => dissect (c_bytes r)) rs = map (fun x => Some (told (snd x))) ps.
Proof.
  intros Hl F. assert (Hu : u32 limit) by (unfold u32; lia).
  destruct (file_law limit ps Hu F) as (f & rs & C & P & A). exists f, rs.
  split; [exact C|]. split; [exact P|]. clear C P. revert F.
  induction A as [|x r ps rs S A IH]; intros F; [reflexivity|].
  apply Forall_cons_iff in F. destruct F as [[_ W] F]. simpl. f_equal; [|exact (IH F)].
  apply uncut_law with (limit := limit); [exact S|].
  destruct S as (_ & _ & w & D & L & B & _). lia.
Qed.

Lemma same_file limit sec usec pieces f :
  0 <= limit -> len (concat pieces) <= 4294967295 -> f_pos f = len (f_bytes f) ->
  exists g, write_packet limit sec usec (len (concat pieces)) pieces f = Some g
    /\ write_packet_buf limit sec usec (concat pieces) f = Some g.
Proof.
  intros L U E. eexists. split.
  - apply write_packet_end; auto.
  - apply write_packet_buf_end; auto.
Qed.
