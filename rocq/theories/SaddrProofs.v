(** Socket addresses: proofs for [SaddrProps]. *)
From Verif Require Import Base SaddrModel.

Lemma slice_law bs s : from_bytes bs = Some s -> as_slice s = bs /\ g_len s = len bs /\ len bs <= 128
  /\ length (g_bytes s) = 128%nat /\ exists z, g_bytes s = bs ++ z.
Proof.
  unfold from_bytes. destruct (128 <? len bs) eqn:Q; [discriminate|]. apply Z.ltb_ge in Q.
  intros E. assert (s = Storage (bs ++ repeat 0 (128 - length bs)) (len bs)) as -> by congruence.
  clear E. unfold as_slice. cbn [g_len g_bytes].
  split; [|split; [reflexivity|split; [exact Q|split]]].
  - unfold len. rewrite Nat2Z.id, firstn_app, firstn_all, Nat.sub_diag, firstn_O, app_nil_r. reflexivity.
  - rewrite app_length, repeat_length. unfold len in Q. lia.
  - eexists. reflexivity.
Qed.

Lemma from_ok bs : len bs <= 128 -> exists s, from_bytes bs = Some s.
Proof.
  intros H. unfold from_bytes. destruct (128 <? len bs) eqn:Q; [apply Z.ltb_lt in Q; lia|].
  eexists. reflexivity.
Qed.

(** written and read again *)
Lemma memory_law s bs buffer : from_bytes bs = Some s -> len bs <= len buffer ->
  let '(mem, n) := write_addr s buffer in n = len bs /\ read_addr mem n = Some s.
Proof.
  intros E L. destruct (slice_law _ _ E) as (A & _ & B & _). unfold write_addr. rewrite A.
  unfold read_addr.
  destruct (len buffer =? 0) eqn:Q.
  - apply Z.eqb_eq in Q. assert (bs = []) as -> by (destruct bs; [reflexivity|unfold len in *; cbn in *; lia]).
    split; [reflexivity|]. cbn. exact E.
  - split; [reflexivity|]. rewrite Z.min_l by lia.
    destruct (128 <? len bs) eqn:Q2; [apply Z.ltb_lt in Q2; lia|].
    unfold len. rewrite Nat2Z.id, firstn_all, firstn_app, firstn_all, Nat.sub_diag, firstn_O, app_nil_r.
    exact E.
Qed.

Lemma cut_law s bs buffer : from_bytes bs = Some s ->
  let '(mem, n) := write_addr s buffer in
  n = len bs /\ length mem = length buffer
  /\ firstn (length bs) mem = firstn (length buffer) bs
  /\ skipn (length bs) mem = skipn (length bs) buffer.
Proof.
  intros E. destruct (slice_law _ _ E) as (A & _ & B & _). unfold write_addr. rewrite A.
  destruct (len buffer =? 0) eqn:Q.
  - apply Z.eqb_eq in Q. assert (buffer = []) as -> by (destruct buffer; [reflexivity|unfold len in *; cbn in *; lia]).
    split; [reflexivity|]. split; [reflexivity|]. rewrite firstn_nil. split; reflexivity.
  - split; [reflexivity|].
    destruct (Nat.le_gt_cases (length bs) (length buffer)) as [K|K].
    + replace (Z.to_nat (Z.min (len bs) (len buffer))) with (length bs) by (unfold len; lia).
      rewrite firstn_all. rewrite (firstn_all2 bs) by lia.
      split; [rewrite app_length, skipn_length; lia|].
      rewrite firstn_app, skipn_app, firstn_all, skipn_all, Nat.sub_diag, firstn_O, app_nil_r. auto.
    + replace (Z.to_nat (Z.min (len bs) (len buffer))) with (length buffer) by (unfold len; lia).
      rewrite skipn_all, app_nil_r.
      assert (length (firstn (length buffer) bs) = length buffer) by (rewrite firstn_length; lia).
      split; [assumption|]. rewrite firstn_all2 by lia. rewrite !skipn_all2 by lia. auto.
Qed.

Lemma long_law bs : 128 < len bs -> from_bytes bs = None /\ read_addr bs (len bs) = None.
Proof.
  intros H. unfold from_bytes, read_addr. destruct (128 <? len bs) eqn:Q; [auto|apply Z.ltb_ge in Q; lia].
Qed.

(** ** Families *)
Lemma kind_law size fam bs s : 2 <= size -> from_bytes bs = Some s ->
  as_kind size fam s
  = if (size <=? len bs) && (first16 bs =? fam) then Some (firstn (Z.to_nat size) bs) else None.
Proof.
  intros H E. destruct (slice_law _ _ E) as (_ & G & B & _ & z & Z). unfold as_kind, family. rewrite G, Z.
  destruct (len bs <? size) eqn:Q.
  - apply Z.ltb_lt in Q. destruct (size <=? len bs) eqn:Q2; [apply Z.leb_le in Q2; lia|reflexivity].
  - apply Z.ltb_ge in Q. destruct (size <=? len bs) eqn:Q2; [|apply Z.leb_gt in Q2; lia].
    destruct (len bs <? 2) eqn:Q3; [apply Z.ltb_lt in Q3; lia|]. cbn [andb].
    assert (first16 (bs ++ z) = first16 bs) as ->.
    { unfold first16. rewrite !app_nth1 by (unfold len in *; lia). reflexivity. }
    destruct (_ =? _); [|reflexivity]. f_equal. rewrite firstn_app.
    replace (_ - _)%nat with 0%nat by (unfold len in *; lia). rewrite firstn_O, app_nil_r. reflexivity.
Qed.

Lemma v4_law ip port : 0 <= ip < 4294967296 -> 0 <= port < 65536 ->
  exists s bs, from_v4 ip port = Some s /\ as_inet s = Some bs /\ v4_of bs = (ip, port)
    /\ as_inet6 s = None /\ as_netlink s = None /\ as_unix s = None /\ len (as_slice s) = 16.
Proof.
  intros Hi Hp. unfold from_v4.
  set (bs := _ ++ repeat 0 8).
  destruct (from_ok bs) as (s & E); [vm_compute; discriminate|]. rewrite E.
  exists s, bs. split; [reflexivity|].
  unfold as_inet, as_inet6, as_netlink. rewrite !(kind_law _ _ bs s) by (first [lia|exact E]).
  split; [reflexivity|]. split.
  { unfold v4_of, bs. cbn [nth app]. f_equal.
    - replace (ip / 65536) with (ip / 256 / 256) by (rewrite Z.div_div by lia; reflexivity).
      replace (ip / 16777216) with (ip / 256 / 256 / 256) by (rewrite !Z.div_div by lia; reflexivity).
      Z.to_euclidean_division_equations. lia.
    - Z.to_euclidean_division_equations. lia. }
  split; [reflexivity|]. split; [reflexivity|].
  destruct (slice_law _ _ E) as (A & G & _ & _ & z & Z). rewrite A. split; [|reflexivity].
  unfold as_unix, family. rewrite G, Z. reflexivity.
Qed.

(** ** Unix addresses *)
Lemma unix_law bs s u : from_bytes bs = Some s -> as_unix s = Some u ->
  2 <= len bs <= 110 /\ first16 bs = 1 /\ sun_path u = Some (skipn 2 bs) /\ u_len u = len bs.
Proof.
  intros E. destruct (slice_law _ _ E) as (_ & G & B & L & z & Z). unfold as_unix, family. rewrite G.
  destruct (len bs <? 2) eqn:Q; [discriminate|]. apply Z.ltb_ge in Q.
  destruct (first16 (g_bytes s) =? 1) eqn:F; [|discriminate]. apply Z.eqb_eq in F.
  unfold unix_new. destruct (len bs <? 2) eqn:Q2; [discriminate|].
  destruct (110 <? len bs) eqn:Q3; [discriminate|]. apply Z.ltb_ge in Q3.
  destruct (negb _); [discriminate|]. intros H. assert (u = Unix (firstn 110 (g_bytes s)) (len bs)) as -> by congruence. clear H.
  split; [lia|]. split.
  { rewrite <- F, Z. unfold first16. rewrite !app_nth1 by (unfold len in *; lia). reflexivity. }
  split; [|reflexivity]. unfold sun_path. cbn [u_len u_bytes]. rewrite Q2. f_equal. rewrite Z.
  rewrite (firstn_app 110), (firstn_all2 (n := 110) bs) by (unfold len in *; lia).
  rewrite skipn_app, firstn_app.
  rewrite (firstn_all2 (skipn 2 bs)) by (rewrite skipn_length; unfold len in *; lia).
  replace (Z.to_nat (len bs - 2) - length (skipn 2 bs))%nat with 0%nat
    by (rewrite skipn_length; unfold len; lia).
  rewrite firstn_O, app_nil_r. reflexivity.
Qed.

Lemma unix_some bs s : from_bytes bs = Some s -> 2 <= len bs <= 110 -> first16 bs = 1 ->
  exists u, as_unix s = Some u.
Proof.
  intros E H F. destruct (slice_law _ _ E) as (_ & G & B & L & z & Z). unfold as_unix, family. rewrite G.
  destruct (len bs <? 2) eqn:Q; [apply Z.ltb_lt in Q; lia|].
  assert (F1 : first16 (g_bytes s) = 1).
  { rewrite <- F, Z. unfold first16. rewrite !app_nth1 by (unfold len in *; lia). reflexivity. }
  assert (F2 : first16 (firstn 110 (g_bytes s)) = 1).
  { rewrite <- F1. unfold first16. destruct (g_bytes s) as [|a [|b l]]; reflexivity. }
  rewrite F1. cbn [Z.eqb]. change (1 =? 1) with true. cbv iota. unfold unix_new. rewrite Q, F2.
  destruct (110 <? len bs) eqn:Q3; [apply Z.ltb_lt in Q3; lia|]. eexists. reflexivity.
Qed.

Lemma until_nul_some p r : ~ In 0 p -> until_nul (p ++ 0 :: r) = Some p.
Proof.
  induction p as [|a p IH]; intros H; [reflexivity|]. cbn.
  destruct (a =? 0) eqn:Q; [apply Z.eqb_eq in Q; exfalso; apply H; left; exact Q|].
  rewrite IH; [reflexivity|]. intros I. apply H. right. exact I.
Qed.

Lemma until_nul_none p : ~ In 0 p -> until_nul p = None.
Proof.
  induction p as [|a p IH]; intros H; [reflexivity|]. cbn.
  destruct (a =? 0) eqn:Q; [apply Z.eqb_eq in Q; exfalso; apply H; left; exact Q|].
  rewrite IH; [reflexivity|]. intros I. apply H. right. exact I.
Qed.

Lemma nul_split bs : (exists p r, bs = p ++ 0 :: r /\ ~ In 0 p) \/ ~ In 0 bs.
Proof.
  induction bs as [|a bs IH]; [right; auto|].
  destruct (Z.eq_dec a 0) as [->|N]; [left; exists [], bs; auto|].
  destruct IH as [(p & r & -> & H)|H].
  - left. exists (a :: p), r. split; [reflexivity|]. intros [|]; auto.
  - right. intros [|]; auto.
Qed.

Lemma classify_law bs s : from_bytes bs = Some s -> 2 <= len bs <= 110 -> first16 bs = 1 ->
  exists u, as_unix s = Some u
  /\ ( (len bs = 2 /\ is_unnamed u = true /\ as_path u = None /\ as_abstract u = None)
    \/ (exists name, skipn 2 bs = 0 :: name
        /\ is_unnamed u = false /\ as_path u = None /\ as_abstract u = Some name)
    \/ (exists path rest, path <> [] /\ ~ In 0 path /\ skipn 2 bs = path ++ 0 :: rest
        /\ is_unnamed u = false /\ as_path u = Some path /\ as_abstract u = None)
    \/ (skipn 2 bs <> [] /\ ~ In 0 (skipn 2 bs)
        /\ is_unnamed u = false /\ as_path u = None /\ as_abstract u = None)).
Proof.
  intros E H F. destruct (unix_some _ _ E H F) as (u & U). exists u. split; [exact U|].
  destruct (unix_law _ _ _ E U) as (_ & _ & P & Lu).
  unfold as_path, as_abstract, is_unnamed. rewrite P, Lu.
  destruct (skipn 2 bs) as [|b r] eqn:K.
  - left. assert (len bs = 2) as ->; [|auto].
    apply (f_equal (@length Z)) in K. rewrite skipn_length in K. unfold len in *. cbn in K. lia.
  - right. assert (N : (len bs =? 2) = false).
    { apply Z.eqb_neq. apply (f_equal (@length Z)) in K. rewrite skipn_length in K. unfold len. cbn in K. lia. }
    rewrite N. destruct (Z.eq_dec b 0) as [->|Nb].
    + left. exists r. auto.
    + right. assert (Q : (b =? 0) = false) by (apply Z.eqb_neq; exact Nb). rewrite Q.
      destruct (nul_split (b :: r)) as [(p & t & Ep & Np)|Np].
      * left. exists p, t. rewrite Ep, until_nul_some by exact Np.
        split; [intros ->; cbn in Ep; congruence|]. auto 10.
      * right. rewrite until_nul_none by exact Np. split; [discriminate|]. auto.
Qed.

Lemma path_law path : path <> [] -> ~ In 0 path -> len path <= 107 ->
  exists u s v, new_path path = Some u /\ from_unix u = Some s /\ as_slice s = [1; 0] ++ path ++ [0]
    /\ as_unix s = Some v /\ as_path v = Some path.
Proof.
  intros N Z L. unfold new_path. destruct path as [|a path]; [congruence|].
  set (p := a :: path) in *. destruct (108 <=? len p) eqn:Q; [apply Z.leb_le in Q; lia|].
  exists (Unix ([1; 0] ++ p ++ repeat 0 (108 - length p)) (2 + len p + 1)).
  unfold from_unix. cbn [u_len u_bytes].
  assert (E : firstn (Z.to_nat (2 + len p + 1)) ([1; 0] ++ p ++ repeat 0 (108 - length p)) = [1; 0] ++ p ++ [0]).
  { replace (Z.to_nat (2 + len p + 1)) with (2 + (length p + 1))%nat by (unfold len; lia).
    cbn [Nat.add app firstn]. do 2 f_equal. rewrite firstn_app.
    rewrite firstn_all2 by lia. f_equal. replace (length p + 1 - length p)%nat with 1%nat by lia.
    unfold len in L. destruct (108 - length p)%nat eqn:K; [lia|]. reflexivity. }
  rewrite E.
  assert (Lb : len ([1; 0] ++ p ++ [0]) = 3 + len p)
    by (unfold len; cbn [app length]; rewrite app_length; cbn [length]; lia).
  pose proof (Nat2Z.is_nonneg (length p)).
  destruct (from_ok ([1; 0] ++ p ++ [0])) as (s & S); [lia|].
  destruct (classify_law _ _ S) as (v & U & C); [unfold len in *; lia|reflexivity|].
  exists s, v. split; [reflexivity|]. split; [exact S|]. split; [apply (slice_law _ _ S)|].
  split; [exact U|]. destruct (unix_law _ _ _ S U) as (_ & _ & P & _).
  unfold as_path. rewrite P. cbn [skipn app]. unfold p at 1. cbn [app].
  destruct (a =? 0) eqn:Qa; [apply Z.eqb_eq in Qa; exfalso; apply Z; left; exact Qa|].
  change (a :: path ++ [0]) with (p ++ 0 :: []). apply until_nul_some, Z.
Qed.

Lemma abstract_law name : len name <= 107 ->
  exists u s v, new_abstract name = Some u /\ from_unix u = Some s /\ as_slice s = [1; 0; 0] ++ name
    /\ as_unix s = Some v /\ as_abstract v = Some name.
Proof.
  intros L. unfold new_abstract. destruct (108 <? len name + 1) eqn:Q; [apply Z.ltb_lt in Q; lia|].
  exists (Unix ([1; 0; 0] ++ name ++ repeat 0 (107 - length name)) (2 + 1 + len name)).
  unfold from_unix. cbn [u_len u_bytes].
  assert (E : firstn (Z.to_nat (2 + 1 + len name)) ([1; 0; 0] ++ name ++ repeat 0 (107 - length name)) = [1; 0; 0] ++ name).
  { replace (Z.to_nat (2 + 1 + len name)) with (3 + length name)%nat by (unfold len; lia).
    cbn [Nat.add app firstn]. do 3 f_equal. rewrite firstn_app, firstn_all, Nat.sub_diag, firstn_O, app_nil_r.
    reflexivity. }
  rewrite E.
  assert (Lb : len ([1; 0; 0] ++ name) = 3 + len name) by (unfold len; cbn [app length]; lia).
  destruct (from_ok ([1; 0; 0] ++ name)) as (s & S); [lia|].
  destruct (unix_some _ _ S) as (v & U); [unfold len in *; lia|reflexivity|].
  exists s, v. split; [reflexivity|]. split; [exact S|]. split; [apply (slice_law _ _ S)|].
  split; [exact U|]. destruct (unix_law _ _ _ S U) as (_ & _ & P & _).
  unfold as_abstract. rewrite P. reflexivity.
Qed.

Lemma list_eqb_eq a b : list_eqb a b = true <-> a = b.
Proof.
  unfold list_eqb. rewrite andb_true_iff, Nat.eqb_eq. revert b.
  induction a as [|x a IH]; intros [|y b]; cbn; split; try (intros [H _]; discriminate); try discriminate; auto.
  - intros [H1 H2]. apply andb_true_iff in H2. destruct H2 as [H2 H3]. apply Z.eqb_eq in H2. cbn in H2. f_equal; [exact H2|].
    apply IH. split; [congruence|exact H3].
  - intros E. injection E as -> ->. assert (b = b) as Eb by reflexivity. apply IH in Eb. destruct Eb as [_ Eb].
    split; [reflexivity|]. rewrite Z.eqb_refl. exact Eb.
Qed.

Lemma equal_law a b s t u v : from_bytes a = Some s -> from_bytes b = Some t ->
  as_unix s = Some u -> as_unix t = Some v ->
  (unix_eqb u v = true <-> skipn 2 a = skipn 2 b).
Proof.
  intros Ea Eb U V. destruct (unix_law _ _ _ Ea U) as (La & _ & Pu & Lu).
  destruct (unix_law _ _ _ Eb V) as (Lb & _ & Pv & Lv).
  unfold unix_eqb. rewrite Pu, Pv, Lu, Lv, andb_true_iff, list_eqb_eq, Z.eqb_eq.
  split; [intros [_ H]; exact H|]. intros H. split; [|exact H].
  apply (f_equal (@length Z)) in H. rewrite !skipn_length in H. unfold len in *. lia.
Qed.
