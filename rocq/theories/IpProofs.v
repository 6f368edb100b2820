(** Proofs about address assignment. *)
From Verif Require Import Base FMap IpModel IpSpec.

Section Proofs.
Context {T : Type}.
Implicit Types a : ipassign T.

Lemma usable_dec z : usable z \/ ~ usable z.
Proof. unfold usable. lia. Qed.

Lemma increment_some x y : increment_address x = Some y ->
  x < y <= U32_MAX /\ usable y /\ forall z, x < z < y -> ~ usable z.
Proof.
  unfold increment_address, usable. cbn [increment_loop]. unfold assert_then.
  repeat match goal with
         | |- context [if ?b then _ else _] => destruct b eqn:?
         end; intros E; inversion E; subst; clear E; split; try lia; split; try lia; intros z Hz;
    assert (D : z = x + 1 \/ z = x + 1 + 1) by lia; destruct D; subst; lia.
Qed.
Lemma increment_none x : increment_address x = None -> forall z, x < z <= U32_MAX -> ~ usable z.
Proof.
  unfold increment_address, usable. cbn [increment_loop]. unfold assert_then.
  repeat match goal with
         | |- context [if ?b then _ else _] => destruct b eqn:?
         end; intros E; try discriminate; clear E; intros z Hz.
  - exfalso. clear -Heqb0 Heqb2 Heqb4. Z.to_euclidean_division_equations. lia.
  - assert (D : z = x + 1 \/ z = x + 1 + 1) by lia. destruct D; subst; lia.
  - assert (D : z = x + 1) by lia. subst; lia.
  - lia.
Qed.

Lemma assign_loop_some node : forall fuel a a' ip,
  assign_loop fuel a node = Some (a', ip) ->
  a' = mkIp (put ip node (ip_map a)) ip /\ mem ip (ip_map a) = false /\
  ip_last a < ip <= U32_MAX /\ usable ip /\
  forall z, ip_last a < z < ip -> usable z -> mem z (ip_map a) = true.
Proof.
  induction fuel as [|fuel IH]; cbn [assign_loop]; intros a a' ip E; [discriminate|].
  destruct (increment_address (ip_last a)) as [y|] eqn:Ei; ob_in E; [|discriminate].
  destruct (increment_some _ _ Ei) as (B & U & G). cbn [ip_map ip_last] in E.
  destruct (mem y (ip_map a)) eqn:M.
  - destruct (IH _ _ _ E) as (Ea & Hm & B' & U' & G'). cbn [ip_map ip_last] in *.
    repeat split; try assumption; try lia; try apply U'.
    intros z Hz Uz. destruct (Z.lt_trichotomy z y) as [L|[->|L]].
    + exfalso. apply (G z); [lia|assumption].
    + assumption.
    + apply G'; [lia|assumption].
  - inversion E; subst. repeat split; try assumption; try lia; try apply U.
    intros z Hz Uz. exfalso. apply (G z); [lia|assumption].
Qed.

Definition above (x : Z) (m : fmap Z T) : list Z := filter (fun k => x <? k) (keys m).
Lemma above_drop x y (m : fmap Z T) : x < y -> mem y m = true -> (length (above y m) < length (above x m))%nat.
Proof.
  intros L M. apply mem_iff in M. unfold above. induction (keys m) as [|k l IH]; [contradiction|].
  cbn. assert (Hle : forall l, (length (filter (fun k => (y <? k)%Z) l) <= length (filter (fun k => (x <? k)%Z) l))%nat).
  { clear -L. induction l as [|k l IH]; cbn; [lia|]. destruct (Z.ltb_spec y k), (Z.ltb_spec x k); cbn; lia. }
  destruct M as [->|M].
  - rewrite Z.ltb_irrefl. destruct (Z.ltb_spec x y); [|lia]. cbn. specialize (Hle l). lia.
  - specialize (IH M). destruct (Z.ltb_spec y k), (Z.ltb_spec x k); cbn; lia.
Qed.

Lemma assign_loop_none node : forall fuel a,
  (length (above (ip_last a) (ip_map a)) < fuel)%nat -> assign_loop fuel a node = None ->
  forall z, ip_last a < z <= U32_MAX -> usable z -> mem z (ip_map a) = true.
Proof.
  induction fuel as [|fuel IH]; intros a Hf E; [lia|]. cbn [assign_loop] in E.
  destruct (increment_address (ip_last a)) as [y|] eqn:Ei; ob_in E.
  - destruct (increment_some _ _ Ei) as (B & U & G). cbn [ip_map ip_last] in E.
    destruct (mem y (ip_map a)) eqn:M; [|discriminate]. intros z Hz Uz.
    destruct (Z.lt_trichotomy z y) as [L|[->|L]].
    + exfalso. apply (G z); [lia|assumption].
    + assumption.
    + assert (Hd := above_drop _ _ _ (proj1 B) M). apply (IH (mkIp (ip_map a) y)); cbn [ip_map ip_last]; [lia|assumption|lia|assumption].
  - intros z Hz Uz. exfalso. exact (increment_none _ Ei z Hz Uz).
Qed.
Lemma filter_len {A} (f : A -> bool) l : (length (filter f l) <= length l)%nat.
Proof. induction l as [|x l IH]; cbn; [lia|]. destruct (f x); cbn; lia. Qed.
Lemma ip_assign_none a node : ip_assign a node = None ->
  forall z, ip_last a < z <= U32_MAX -> usable z -> mem z (ip_map a) = true.
Proof.
  intros E. apply (assign_loop_none node (S (length (ip_map a)))); [|exact E].
  unfold above. pose proof (filter_len (fun k => ip_last a <? k) (keys (ip_map a))).
  unfold keys in *. rewrite map_length in H. lia.
Qed.

Definition FIRST : Z := 184549376.

(** One step *)
Lemma del_notin (k : Z) (m : fmap Z T) : mem k m = false -> del k m = m.
Proof.
  intros M. assert (N : ~ In k (keys m)) by (intros I; apply mem_iff in I; congruence).
  clear M. unfold del, keys in *. induction m as [|[k' v] m IH]; cbn in *; [reflexivity|].
  destruct (Z.eqb_spec k k') as [->|NE]; [exfalso; apply N; now left|].
  cbn. f_equal. apply IH. tauto.
Qed.
Lemma put_fresh (k : Z) v (m : fmap Z T) : mem k m = false -> put k v m = (k, v) :: m.
Proof. intros M. unfold put. now rewrite del_notin. Qed.

Lemma step_map a o a' r : ip_step a o = Some (a', r) ->
  ip_map a' = (match r with Some x => [(x, node_of o)] | None => [] end) ++ ip_map a /\
  (forall x, r = Some x -> mem x (ip_map a) = false).
Proof.
  destruct o as [n|n ip]; cbn [ip_step node_of]; intros E.
  - destruct (ip_assign a n) as [[a1 x]|] eqn:Ea; ob_in E; [|discriminate]. inversion E; subst.
    destruct (assign_loop_some _ _ _ _ _ Ea) as (-> & M & _). cbn. split; [now apply put_fresh|].
    intros y Ey; inversion Ey; now subst.
  - unfold ip_assign_ip in E. destruct (mem ip (ip_map a)) eqn:M; inversion E; subst; cbn.
    + split; [reflexivity|discriminate].
    + split; [now apply put_fresh|]. intros y Ey; inversion Ey; now subst.
Qed.
Lemma step_last a o a' r : ip_step a o = Some (a', r) -> FIRST <= ip_last a ->
  ip_last a' = Z.max (ip_last a) (match o, r with IpAuto _, Some x => x | _, _ => FIRST end).
Proof.
  destruct o as [n|n ip]; cbn [ip_step]; intros E L.
  - destruct (ip_assign a n) as [[a1 x]|] eqn:Ea; ob_in E; [|discriminate]. inversion E; subst.
    destruct (assign_loop_some _ _ _ _ _ Ea) as (-> & M & B & _). cbn. lia.
  - unfold ip_assign_ip in E. destruct (mem ip (ip_map a)); inversion E; subst; cbn; lia.
Qed.

Lemma run_map ops : forall a a' rs, ip_run a ops = Some (a', rs) ->
  ip_map a' = rev (assigned ops rs) ++ ip_map a /\
  map fst (assigned ops rs) = taken rs /\
  (NoDup (keys (ip_map a)) -> NoDup (keys (ip_map a'))).
Proof.
  induction ops as [|o ops IH]; cbn [ip_run]; intros a a' rs E.
  - inversion E; subst. cbn. auto.
  - destruct (ip_step a o) as [[a1 x]|] eqn:Es; ob_in E; [|discriminate].
    destruct (ip_run a1 ops) as [[a2 xs]|] eqn:Er; ob_in E; [|discriminate]. inversion E; subst.
    destruct (IH _ _ _ Er) as (E1 & E2 & E3). destruct (step_map _ _ _ _ Es) as (E4 & E5).
    rewrite E1, E4. destruct x as [x|].
    + replace (assigned (o :: ops) (Some x :: xs)) with ((x, node_of o) :: assigned ops xs) by reflexivity.
      replace (taken (Some x :: xs)) with (x :: taken xs) by reflexivity.
      cbn [rev map fst]. rewrite E2, <- app_assoc. split; [reflexivity|]. split; [reflexivity|].
      intros ND. rewrite E1, E4 in E3. apply E3. cbn. constructor; [|exact ND].
      intros I. apply mem_iff in I. rewrite (E5 x eq_refl) in I. discriminate.
    + replace (assigned (o :: ops) (None :: xs)) with (assigned ops xs) by reflexivity.
      replace (taken (None :: xs)) with (taken xs) by reflexivity.
      split; [reflexivity|]. split; [assumption|]. intros ND. rewrite E1, E4 in E3. apply E3, ND.
Qed.
Lemma run_last ops : forall a a' rs, ip_run a ops = Some (a', rs) -> FIRST <= ip_last a ->
  ip_last a' = Z.max (ip_last a) (last_auto ops rs).
Proof.
  induction ops as [|o ops IH]; cbn [ip_run]; intros a a' rs E L.
  - inversion E; subst. cbn. unfold FIRST in L. lia.
  - destruct (ip_step a o) as [[a1 x]|] eqn:Es; ob_in E; [|discriminate].
    destruct (ip_run a1 ops) as [[a2 xs]|] eqn:Er; ob_in E; [|discriminate]. inversion E; subst.
    pose proof (step_last _ _ _ _ Es L) as L1. rewrite (IH _ _ _ Er) by lia. cbn [last_auto].
    rewrite L1. unfold FIRST. destruct o, x; lia.
Qed.

Lemma last_auto_ge (ops : list (ipop T)) : forall rs, FIRST <= last_auto ops rs.
Proof. unfold FIRST. induction ops as [|o ops IH]; intros [|r rs]; cbn; try lia. Qed.

Lemma reach_facts ops a rs : ip_run ip_new ops = Some (a, rs) ->
  NoDup (keys (ip_map a)) /\ (forall x, In x (keys (ip_map a)) <-> In x (taken rs)) /\
  (forall x n, get x (ip_map a) = Some n <-> In (x, n) (assigned ops rs)) /\
  NoDup (taken rs) /\ ip_last a = last_auto ops rs.
Proof.
  intros E. destruct (run_map _ _ _ _ E) as (E1 & E2 & E3). cbn in E1. rewrite app_nil_r in E1.
  assert (ND := E3 (NoDup_nil _)).
  split; [assumption|]. split.
  { intros x. rewrite E1, <- E2. unfold keys. rewrite map_rev, <- in_rev. tauto. }
  split.
  { intros x n. split; intros H.
    - apply get_in in H. rewrite E1, <- in_rev in H. exact H.
    - apply in_get; [assumption|]. rewrite E1, <- in_rev. exact H. }
  split.
  { rewrite E1 in ND. unfold keys in ND. rewrite map_rev in ND. rewrite <- E2.
    rewrite <- (rev_involutive (map _ _)). now apply NoDup_rev. }
  rewrite (run_last _ _ _ _ E) by (cbn; unfold FIRST; lia). pose proof (last_auto_ge ops rs).
  unfold FIRST in H. cbn. lia.
Qed.

Lemma ip_unique ops a rs : ip_run (@ip_new T) ops = Some (a, rs) -> NoDup (taken rs).
Proof. intros E. apply (reach_facts _ _ _ E). Qed.
Lemma ip_lookup ops a rs ip n : ip_run ip_new ops = Some (a, rs) ->
  (ip_get_node a ip = Some n <-> In (ip, n) (assigned ops rs)).
Proof. intros E. apply (reach_facts _ _ _ E). Qed.
Lemma mem_taken ops a rs x : ip_run (@ip_new T) ops = Some (a, rs) ->
  (mem x (ip_map a) = true <-> In x (taken rs)).
Proof. intros E. rewrite mem_iff. apply (reach_facts _ _ _ E). Qed.
Lemma mem_taken_f ops a rs x : ip_run (@ip_new T) ops = Some (a, rs) ->
  (mem x (ip_map a) = false <-> ~ In x (taken rs)).
Proof. intros E. rewrite <- (mem_taken _ _ _ x E). destruct (mem x (ip_map a)); split; congruence. Qed.

Lemma ip_explicit ops a rs n ip : ip_run ip_new ops = Some (a, rs) ->
  exists a' r, ip_step a (IpExplicit n ip) = Some (a', r) /\
    (In ip (taken rs) -> r = None /\ a' = a) /\ (~ In ip (taken rs) -> r = Some ip).
Proof.
  intros E. cbn [ip_step]. unfold ip_assign_ip. pose proof (mem_taken _ _ _ ip E) as M.
  destruct (mem ip (ip_map a)); eexists; eexists; (split; [reflexivity|]); split; intros H; auto.
  - exfalso. tauto.
  - exfalso. apply M in H. discriminate.
Qed.
Lemma ip_auto ops a rs n a' r : ip_run ip_new ops = Some (a, rs) ->
  ip_step a (IpAuto n) = Some (a', r) ->
  exists ip, r = Some ip /\ ~ In ip (taken rs) /\ usable ip /\
    last_auto ops rs < ip <= U32_MAX /\
    forall z, last_auto ops rs < z < ip -> usable z -> In z (taken rs).
Proof.
  intros E Es. cbn [ip_step] in Es. destruct (ip_assign a n) as [[a1 x]|] eqn:Ea; ob_in Es; [|discriminate].
  inversion Es; subst. destruct (assign_loop_some _ _ _ _ _ Ea) as (-> & M & B & U & G).
  destruct (reach_facts _ _ _ E) as (_ & _ & _ & _ & L). rewrite L in *.
  exists x. split; [reflexivity|]. split; [now apply (mem_taken_f _ _ _ _ E)|]. split; [assumption|].
  split; [assumption|]. intros z Hz Uz. apply (mem_taken _ _ _ _ E). now apply G.
Qed.
Lemma ip_auto_panics ops a rs n : ip_run ip_new ops = Some (a, rs) ->
  (ip_step a (IpAuto n) = None <->
   forall z, last_auto ops rs < z <= U32_MAX -> usable z -> In z (taken rs)).
Proof.
  intros E. destruct (reach_facts _ _ _ E) as (_ & _ & _ & _ & L). split.
  - intros Es. cbn [ip_step] in Es. destruct (ip_assign a n) as [[a1 x]|] eqn:Ea; ob_in Es; [discriminate|].
    intros z Hz Uz. apply (mem_taken _ _ _ _ E). apply (ip_assign_none _ _ Ea); rewrite ?L; assumption.
  - intros H. destruct (ip_step a (IpAuto n)) as [[a' r]|] eqn:Es; [|reflexivity]. exfalso.
    destruct (ip_auto _ _ _ _ _ _ E Es) as (ip & -> & N & U & B & _). apply N, H; assumption.
Qed.

(** Every usable address up to the last automatic one is taken, so running out of addresses takes
    as many assignments as there are usable addresses. *)
Lemma run_dense ops : forall a a' rs, ip_run a ops = Some (a', rs) ->
  (forall z, FIRST < z <= ip_last a -> usable z -> mem z (ip_map a) = true) ->
  (forall z, FIRST < z <= ip_last a' -> usable z -> mem z (ip_map a') = true).
Proof.
  induction ops as [|o ops IH]; cbn [ip_run]; intros a a' rs E D.
  - inversion E; subst. exact D.
  - destruct (ip_step a o) as [[a1 x]|] eqn:Es; ob_in E; [|discriminate].
    destruct (ip_run a1 ops) as [[a2 xs]|] eqn:Er; ob_in E; [|discriminate]. inversion E; subst.
    apply (IH _ _ _ Er). clear IH Er E. intros z Hz Uz. destruct o as [n|n ip]; cbn [ip_step] in Es.
    + destruct (ip_assign a n) as [[a3 y]|] eqn:Ea; ob_in Es; [|discriminate]. inversion Es; subst.
      destruct (assign_loop_some _ _ _ _ _ Ea) as (-> & M & B & U & G). cbn [ip_map ip_last] in *.
      rewrite mem_put. change (eqb z y) with (z =? y); destruct (Z.eqb_spec z y) as [_|NE]; [reflexivity|]. cbn.
      destruct (Z.le_gt_cases z (ip_last a)); [apply D; [lia|assumption]|]. apply G; [lia|assumption].
    + unfold ip_assign_ip in Es. destruct (mem ip (ip_map a)); inversion Es; subst; cbn [ip_map ip_last] in *.
      * apply D; assumption.
      * rewrite mem_put. rewrite (D z Hz Uz). apply orb_true_r.
Qed.

Definition nth_usable (i : Z) : Z := FIRST + (i / 254) * 256 + 1 + i mod 254.
Definition COUNT : Z := 4078305280.   (* 245 * 65536 * 254 *)
Lemma nth_usable_ok i : 0 <= i < COUNT -> FIRST < nth_usable i <= U32_MAX /\ usable (nth_usable i).
Proof.
  unfold nth_usable, COUNT, FIRST, U32_MAX, usable. intros H.
  assert (0 <= i mod 254 < 254) by (apply Z.mod_pos_bound; lia).
  assert (0 <= i / 254 < 16056320).
  { split; [apply Z.div_pos; lia|apply Z.div_lt_upper_bound; lia]. }
  assert (E : (184549376 + i / 254 * 256 + 1 + i mod 254) mod 256 = 1 + i mod 254).
  { symmetry. apply (Z.mod_unique _ _ (720896 + i / 254)); lia. }
  rewrite E. lia.
Qed.
Lemma nth_usable_inj i j : nth_usable i = nth_usable j -> i = j.
Proof.
  unfold nth_usable. intros E.
  assert (0 <= i mod 254 < 254) by (apply Z.mod_pos_bound; lia).
  assert (0 <= j mod 254 < 254) by (apply Z.mod_pos_bound; lia).
  pose proof (Z.div_mod i 254 ltac:(lia)). pose proof (Z.div_mod j 254 ltac:(lia)). lia.
Qed.
Lemma nodup_map_inj {A B} (f : A -> B) l : (forall x y, f x = f y -> x = y) -> NoDup l -> NoDup (map f l).
Proof.
  intros I N. induction N; cbn; constructor; [|assumption].
  intros M. apply in_map_iff in M as (y & E & M). apply I in E. now subst.
Qed.
Lemma exhausted_count (l : list Z) :
  (forall z, FIRST < z <= U32_MAX -> usable z -> In z l) -> COUNT <= Z.of_nat (length l).
Proof.
  intros H. set (n := Z.to_nat COUNT).
  assert (I : incl (map (fun i => nth_usable (Z.of_nat i)) (seq 0 n)) l).
  { intros z Hz. apply in_map_iff in Hz as (i & <- & Hi). apply in_seq in Hi.
    assert (0 <= Z.of_nat i < COUNT) by (unfold n in Hi; unfold COUNT in *; lia).
    destruct (nth_usable_ok _ H0). now apply H. }
  assert (ND : NoDup (map (fun i => nth_usable (Z.of_nat i)) (seq 0 n))).
  { apply nodup_map_inj; [|apply seq_NoDup]. intros x y E. apply nth_usable_inj in E. lia. }
  apply (NoDup_incl_length ND) in I. rewrite map_length, seq_length in I. unfold n, COUNT in *. lia.
Qed.

Lemma ip_auto_ok ops a rs n : ip_run ip_new ops = Some (a, rs) ->
  Z.of_nat (length (taken rs)) < COUNT -> ip_step a (IpAuto n) <> None.
Proof.
  intros E L Es. pose proof (proj1 (ip_auto_panics _ _ _ n E) Es) as H.
  assert (COUNT <= Z.of_nat (length (taken rs))); [|lia]. apply exhausted_count. intros z Hz Uz.
  destruct (Z.le_gt_cases z (last_auto ops rs)); [|apply H; [lia|assumption]].
  apply (mem_taken _ _ _ _ E). apply (run_dense _ _ _ _ E).
  - cbn. unfold FIRST. intros; lia.
  - destruct (reach_facts _ _ _ E) as (_ & _ & _ & _ & ->). lia.
  - assumption.
Qed.

(** * Whole host lists *)
Definition cfg_op (h : hostcfg) : option (ipop T) := match h with (n, Some ip) => Some (IpExplicit n ip) | _ => None end.
Definition explicit_addrs (hosts : list (@hostcfg T)) : list Z :=
  flat_map (fun h => match snd h with Some ip => [ip] | None => [] end) hosts.
Definition explicit_ops (hosts : list (@hostcfg T)) : list (ipop T) :=
  flat_map (fun h => match h with (n, Some ip) => [IpExplicit n ip] | (_, None) => [] end) hosts.
Definition auto_ops (hosts : list (@hostcfg T)) : list (ipop T) :=
  flat_map (fun h => match h with (n, None) => [IpAuto n] | (_, Some _) => [] end) hosts.

Lemma run_app ops : forall ops2 a a1 rs1,
  ip_run a ops = Some (a1, rs1) ->
  ip_run a (ops ++ ops2) = do (a2, rs2) <- ip_run a1 ops2; Some (a2, rs1 ++ rs2).
Proof.
  induction ops as [|o ops IH]; cbn [ip_run app]; intros ops2 a a1 rs1 E.
  - inversion E; subst. destruct (ip_run a1 ops2) as [[? ?]|]; reflexivity.
  - destruct (ip_step a o) as [[ax x]|] eqn:Es; ob_in E; [|discriminate]. ob.
    destruct (ip_run ax ops) as [[ay xs]|] eqn:Er; ob_in E; [|discriminate]. inversion E; subst.
    rewrite (IH _ _ _ _ Er). destruct (ip_run a1 ops2) as [[? ?]|]; reflexivity.
Qed.

Lemma explicit_run hosts : forall a,
  match assign_explicit a hosts with
  | Some a' => ip_run a (explicit_ops hosts) = Some (a', map Some (explicit_addrs hosts))
  | None => True
  end.
Proof.
  induction hosts as [|[n [ip|]] hosts IH]; intros a; cbn [assign_explicit].
  - reflexivity.
  - destruct (ip_assign_ip a n ip) as [a1 ok] eqn:Ex. destruct ok; [|exact I].
    specialize (IH a1). destruct (assign_explicit a1 hosts) as [a2|]; [|exact I].
    change (explicit_ops ((n, Some ip) :: hosts)) with (IpExplicit n ip :: explicit_ops hosts).
    change (explicit_addrs ((n, Some ip) :: hosts)) with (ip :: explicit_addrs hosts).
    cbn [ip_run ip_step]. rewrite Ex. ob. rewrite IH. reflexivity.
  - exact (IH a).
Qed.
Lemma explicit_result hosts : forall a, NoDup (keys (ip_map a)) ->
  (assign_explicit a hosts = None <-> ~ NoDup (explicit_addrs hosts ++ keys (ip_map a))).
Proof.
  induction hosts as [|[n [ip|]] hosts IH]; intros a ND; cbn [assign_explicit].
  - cbn. split; [discriminate|]. intros H. now exfalso.
  - replace (explicit_addrs ((n, Some ip) :: hosts)) with (ip :: explicit_addrs hosts) by reflexivity.
    unfold ip_assign_ip. destruct (mem ip (ip_map a)) eqn:M.
    + split; [|reflexivity]. intros _ N. cbn in N. inversion N; subst. apply H1, in_app_iff. right.
      now apply mem_iff.
    + rewrite IH by (cbn [ip_map]; now apply nodup_put). cbn [ip_map]. rewrite put_fresh by assumption.
      cbn [keys map fst]. fold (keys (ip_map a)). 
      assert (P : Permutation (explicit_addrs hosts ++ ip :: keys (ip_map a))
                    ((ip :: explicit_addrs hosts) ++ keys (ip_map a))).
      { symmetry. apply Permutation_middle. }
      split; intros H C; apply H; [apply (Permutation_NoDup (Permutation_sym P) C)|apply (Permutation_NoDup P C)].
  - apply IH, ND.
Qed.
Lemma auto_run hosts : forall a,
  match assign_auto a hosts with
  | Some (a', hosts') => exists rs, ip_run a (auto_ops hosts) = Some (a', rs) /\
      Permutation (map Some (explicit_addrs hosts) ++ rs) (map snd hosts') /\
      (forall r, In r rs -> r <> None) /\
      Forall2 (fun h h' => fst h = fst h' /\ (snd h <> None -> snd h' = snd h)) hosts hosts' /\
      (forall n x, In (n, Some x) hosts' <-> In (n, Some x) hosts \/ In (x, n) (assigned (auto_ops hosts) rs))
  | None => ip_run a (auto_ops hosts) = None
  end.
Proof.
  induction hosts as [|[n [ip|]] hosts IH]; intros a; cbn [assign_auto].
  - exists []. cbn. repeat split; auto; intuition.
  - specialize (IH a). replace (auto_ops ((n, Some ip) :: hosts)) with (auto_ops hosts) by reflexivity.
    destruct (assign_auto a hosts) as [[a' hosts']|]; ob; [|exact IH].
    destruct IH as (rs & E & P & NN & F & As). exists rs. split; [exact E|]. split; [|split; [exact NN|split]].
    + cbn. now apply perm_skip.
    + constructor; [now split|exact F].
    + intros m x. cbn [In]. rewrite As. intuition.
  - destruct (ip_assign a n) as [[a1 x]|] eqn:Ea; ob.
    2: { change (auto_ops ((n, None) :: hosts)) with (IpAuto n :: auto_ops hosts).
         cbn [ip_run ip_step]. rewrite Ea. reflexivity. }
    specialize (IH a1). destruct (assign_auto a1 hosts) as [[a' hosts']|]; ob;
      change (auto_ops ((n, None) :: hosts)) with (IpAuto n :: auto_ops hosts).
    + destruct IH as (rs & E & P & NN & F & As). exists (Some x :: rs).
      cbn [ip_run ip_step]. rewrite Ea. ob. rewrite E. split; [reflexivity|].
      split; [|split; [|split]].
      * cbn [explicit_addrs flat_map snd app map]. fold (explicit_addrs hosts).
        rewrite <- Permutation_middle. now apply perm_skip.
      * intros r [<-|I]; [discriminate|now apply NN].
      * constructor; [|exact F]. split; [reflexivity|]. cbn. congruence.
      * intros m y. replace (assigned (IpAuto n :: auto_ops hosts) (Some x :: rs))
          with ((x, n) :: assigned (auto_ops hosts) rs) by reflexivity.
        cbn [In]. rewrite As. split.
        -- intros [E'|[H|H]]; [inversion E'; subst; tauto|tauto|tauto].
        -- intros [[E'|H]|[E'|H]]; [discriminate|tauto|inversion E'; subst; tauto|tauto].
    + cbn [ip_run ip_step]. rewrite Ea. ob. rewrite IH. reflexivity.
Qed.

Lemma explicit_ops_len hosts : length (explicit_ops hosts) = length (explicit_addrs hosts).
Proof. induction hosts as [|[n [ip|]] hosts IH]; cbn; auto. Qed.
Lemma assigned_app o1 o2 r1 r2 : length o1 = length r1 ->
  @assigned T (o1 ++ o2) (r1 ++ r2) = assigned o1 r1 ++ assigned o2 r2.
Proof.
  revert r1. induction o1 as [|o o1 IH]; intros [|r r1] L; cbn in L; try discriminate; [reflexivity|].
  unfold assigned in *. cbn [app combine flat_map]. rewrite IH by lia. apply app_assoc.
Qed.
Lemma assigned_explicit hosts n x :
  In (x, n) (assigned (explicit_ops hosts) (map Some (explicit_addrs hosts))) <-> In (n, Some x) hosts.
Proof.
  induction hosts as [|[m [ip|]] hosts IH].
  - cbn. tauto.
  - transitivity (In (x, n) ((ip, m) :: assigned (explicit_ops hosts) (map Some (explicit_addrs hosts))));
      [reflexivity|]. cbn [In]. rewrite IH. split; (intros [E|H]; [inversion E; subst; tauto|tauto]).
  - transitivity (In (x, n) (assigned (explicit_ops hosts) (map Some (explicit_addrs hosts))));
      [reflexivity|]. rewrite IH. cbn [In].
    split; [tauto|]. intros [E|H]; [discriminate|exact H].
Qed.

Lemma hosts_ok hosts a hosts' : assign_ips hosts = Some (inl (a, hosts')) ->
  Forall2 (fun h h' => fst h = fst h' /\ (snd h <> None -> snd h' = snd h)) hosts hosts' /\
  (forall h, In h hosts' -> snd h <> None) /\
  NoDup (map snd hosts') /\
  (forall n x, In (n, Some x) hosts' <-> ip_get_node a x = Some n).
Proof.
  unfold assign_ips. intros E. pose proof (explicit_run hosts ip_new) as R1.
  destruct (assign_explicit ip_new hosts) as [a1|]; [|discriminate].
  pose proof (auto_run hosts a1) as R2.
  destruct (assign_auto a1 hosts) as [[a2 h2]|]; ob_in E; [|discriminate]. inversion E; subst.
  destruct R2 as (rs & R2 & P & NN & F & As).
  assert (R : ip_run ip_new (explicit_ops hosts ++ auto_ops hosts) = Some (a, map Some (explicit_addrs hosts) ++ rs)).
  { rewrite (run_app _ _ _ _ _ R1), R2. reflexivity. }
  destruct (reach_facts _ _ _ R) as (_ & _ & G & ND & _).
  split; [exact F|]. split; [|split].
  - intros [n x] I C. cbn in C. subst x.
    assert (In (@None Z) (map Some (explicit_addrs hosts) ++ rs)).
    { apply (Permutation_in _ (Permutation_sym P)). apply in_map_iff. exists (n, None). auto. }
    apply in_app_iff in H as [H|H]; [apply in_map_iff in H as (? & ? & _); discriminate|].
    exact (NN _ H eq_refl).
  - apply (Permutation_NoDup P).
    assert (S : forall l, ~ In (@None Z) l -> l = map Some (taken l)).
    { induction l as [|[y|] l IH]; intros N; [reflexivity| |exfalso; apply N; now left].
      cbn. f_equal. apply IH. intros C. apply N. now right. }
    rewrite (S (map Some (explicit_addrs hosts) ++ rs)).
    + apply nodup_map_inj; [intros; congruence|exact ND].
    + intros C. apply in_app_iff in C as [H|H]; [apply in_map_iff in H as (? & ? & _); discriminate|].
      exact (NN _ H eq_refl).
  - intros n x. unfold ip_get_node. rewrite G, As, assigned_app, in_app_iff, assigned_explicit; [tauto|].
    rewrite map_length. apply explicit_ops_len.
Qed.
Lemma hosts_error hosts : assign_ips hosts = Some (inr tt) <-> ~ NoDup (explicit_addrs hosts).
Proof.
  unfold assign_ips. pose proof (explicit_result hosts ip_new (NoDup_nil _)) as R. cbn in R.
  rewrite app_nil_r in R. destruct (assign_explicit ip_new hosts) as [a|].
  - split.
    + intros E. destruct (assign_auto a hosts); ob_in E; discriminate.
    + intros N. apply R in N. discriminate.
  - split; [|reflexivity]. intros _. now apply R.
Qed.

Lemma run_len ops : forall a a' rs, @ip_run T a ops = Some (a', rs) -> length rs = length ops.
Proof.
  induction ops as [|o ops IH]; cbn [ip_run]; intros a a' rs E; [inversion E; reflexivity|].
  destruct (ip_step a o) as [[a1 x]|]; ob_in E; [|discriminate].
  destruct (ip_run a1 ops) as [[a2 xs]|] eqn:Er; ob_in E; [|discriminate]. inversion E; subst. cbn. f_equal. eauto.
Qed.
Lemma taken_len rs : (length (taken rs) <= length rs)%nat.
Proof. unfold taken. induction rs as [|[x|] rs IH]; cbn [flat_map app length]; lia. Qed.
Lemma run_total ops : forall ops0 a rs0, ip_run (@ip_new T) ops0 = Some (a, rs0) ->
  Z.of_nat (length (ops0 ++ ops)) <= COUNT -> ip_run a ops <> None.
Proof.
  induction ops as [|o ops IH]; intros ops0 a rs0 E L C; [discriminate|].
  rewrite app_length in L. cbn [length] in L. cbn [ip_run] in C.
  destruct (ip_step a o) as [[a1 x]|] eqn:Es; ob_in C.
  - destruct (ip_run a1 ops) as [[a2 xs]|] eqn:Er; ob_in C; [discriminate|].
    apply (IH (ops0 ++ [o]) a1 (rs0 ++ [x])); [|rewrite !app_length; cbn [length]; lia|exact Er].
    rewrite (run_app _ _ _ _ _ E). cbn [ip_run]. rewrite Es. reflexivity.
  - destruct o as [n|n ip].
    + apply (ip_auto_ok _ _ _ n E); [|exact Es].
      pose proof (taken_len rs0). rewrite (run_len _ _ _ _ E) in H. lia.
    + cbn in Es. destruct (ip_assign_ip a n ip); discriminate.
Qed.
Lemma ops_len hosts : (length (explicit_ops hosts) + length (auto_ops hosts) = length hosts)%nat.
Proof. unfold explicit_ops, auto_ops. induction hosts as [|[n [ip|]] hosts IH]; cbn [flat_map app length]; lia. Qed.
Lemma hosts_no_panic hosts : Z.of_nat (length hosts) <= COUNT -> @assign_ips T hosts <> None.
Proof.
  unfold assign_ips. intros L C. pose proof (explicit_run hosts ip_new) as R1.
  destruct (assign_explicit ip_new hosts) as [a1|]; [|discriminate].
  pose proof (auto_run hosts a1) as R2.
  destruct (assign_auto a1 hosts) as [[a2 h2]|]; ob_in C; [discriminate|].
  revert R2. apply (run_total _ _ _ _ R1). rewrite app_length, ops_len. exact L.
Qed.
End Proofs.
