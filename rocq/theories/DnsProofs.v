(** Proofs about the name service. *)
From Coq Require Import String Ascii.
From Verif Require Import Base FMap DnsModel DnsSpec.

Lemma lower_same a b : (97 <= nat_of_ascii b <= 122)%nat -> (ascii_lower a = b <-> same_letter a b).
Proof.
  unfold ascii_lower, same_letter. intros B.
  destruct (Nat.leb_spec 65 (nat_of_ascii a)), (Nat.leb_spec (nat_of_ascii a) 90); cbn.
  - split.
    + intros <-. rewrite nat_ascii_embedding in * by lia. right. lia.
    + intros [->|[_ E]]; [lia|]. rewrite E. apply ascii_nat_embedding.
  - split; [intros ->; now left|]. intros [->|[_ E]]; [reflexivity|lia].
  - split; [intros ->; now left|]. intros [->|[_ E]]; [reflexivity|lia].
  - lia.
Qed.
Lemma lower_spells t : (forall i c, String.get i t = Some c -> (97 <= nat_of_ascii c <= 122)%nat) ->
  forall s, lower s = t <-> spells s t.
Proof.
  induction t as [|b t IH]; intros B [|a s]; cbn [lower spells]; try (split; [discriminate|contradiction]).
  - tauto.
  - rewrite <- IH by (intros i; apply (B (S i))). rewrite <- lower_same by (apply (B O); reflexivity).
    split; [intros E; inversion E; auto|intros [<- <-]; reflexivity].
Qed.
Lemma localhost_spells n : eq_ignore_ascii_case n "localhost" = true <-> spells n "localhost".
Proof.
  unfold eq_ignore_ascii_case. change (lower "localhost") with "localhost"%string.
  rewrite String.eqb_eq. apply lower_spells. intros i c.
  do 9 (destruct i as [|i]; [cbn; intros E; inversion E; subst; vm_compute; lia|]).
  cbn. destruct i; discriminate.
Qed.

Definition acc_step (acc : list record) (r : record) (x : option regerror) : list record :=
  match x with None => acc ++ [r] | Some _ => acc end.

(** The invariant: both indices hold exactly the accepted records. *)
Record inv (acc : list record) (db : dnsdb) : Prop := {
  inv_names : NoDup (map r_name acc);
  inv_addrs : NoDup (map r_addr acc);
  inv_keys : NoDup (keys (addr_index db));
  inv_addr : forall a r, get a (addr_index db) = Some r <-> In r acc /\ r_addr r = a;
  inv_name : forall n r, get n (name_index db) = Some r <-> In r acc /\ r_name r = n;
  inv_free : forall r, In r acc -> ~ reserved (r_addr r) (r_name r)
}.

Lemma inv_new : inv [] dns_new.
Proof. split; cbn; try constructor; try contradiction; try discriminate; tauto. Qed.

Lemma get_addr_none acc db a : inv acc db -> get a (addr_index db) = None <-> ~ In a (map r_addr acc).
Proof.
  intros I. split.
  - intros G M. apply in_map_iff in M as (r & E & M). 
    assert (get a (addr_index db) = Some r) by (apply (inv_addr _ _ I); auto). congruence.
  - intros N. destruct (get a (addr_index db)) as [r|] eqn:G; [|reflexivity]. exfalso. apply N.
    apply (inv_addr _ _ I) in G as (M & <-). now apply in_map.
Qed.
Lemma get_name_none acc db a : inv acc db -> get a (name_index db) = None <-> ~ In a (map r_name acc).
Proof.
  intros I. split.
  - intros G M. apply in_map_iff in M as (r & E & M). 
    assert (get a (name_index db) = Some r) by (apply (inv_name _ _ I); auto). congruence.
  - intros N. destruct (get a (name_index db)) as [r|] eqn:G; [|reflexivity]. exfalso. apply N.
    apply (inv_name _ _ I) in G as (M & <-). now apply in_map.
Qed.

Lemma unspec a : is_unspecified a = true <-> a = 0.
Proof. unfold is_unspecified. lia. Qed.
Lemma loop a : is_loopback a = true <-> 2130706432 <= a < 2147483648.
Proof. unfold is_loopback, first_octet. Z.to_euclidean_division_equations. lia. Qed.
Lemma multi a : is_multicast a = true <-> 3758096384 <= a < 4026531840.
Proof. unfold is_multicast, first_octet. Z.to_euclidean_division_equations. lia. Qed.
Lemma broad a : is_broadcast a = true <-> a = 4294967295.
Proof. unfold is_broadcast, U32_MAX. lia. Qed.

Lemma register_cases acc db id a n : inv acc db ->
  match dns_register db id a n with
  | (db', None) => ~ reserved a n /\ ~ In a (map r_addr acc) /\ ~ In n (map r_name acc) /\
                   db' = mkDb (put n (mkRec id a n) (name_index db)) (put a (mkRec id a n) (addr_index db))
  | (db', Some e) => db' = db /\ justified acc a n e
  end.
Proof.
  intros I. unfold dns_register.
  pose proof (unspec a) as U. pose proof (loop a) as L. pose proof (multi a) as M. pose proof (broad a) as B.
  pose proof (localhost_spells n) as S.
  destruct (is_unspecified a); [cbn; tauto|]. destruct (is_loopback a); [cbn; tauto|].
  destruct (is_broadcast a); [cbn; tauto|]. destruct (is_multicast a); [cbn; tauto|].
  destruct (eq_ignore_ascii_case n "localhost"); [cbn; tauto|].
  destruct (get a (addr_index db)) as [r|] eqn:Ga.
  { apply (inv_addr _ _ I) in Ga as (Hr & <-). cbn. split; [reflexivity|]. split; [reflexivity|]. now apply in_map. }
  destruct (get n (name_index db)) as [r|] eqn:Gn.
  { apply (inv_name _ _ I) in Gn as (Hr & <-). cbn. split; [reflexivity|]. split; [reflexivity|]. now apply in_map. }
  apply (get_addr_none _ _ _ I) in Ga. apply (get_name_none _ _ _ I) in Gn.
  split; [|tauto]. unfold reserved.
  intros [H|[H|[H|[H|H]]]]; [apply U in H|apply L in H|apply M in H|apply B in H|apply S in H]; discriminate.
Qed.

Lemma nodup_snoc {A} (l : list A) x : NoDup l -> ~ In x l -> NoDup (l ++ [x]).
Proof.
  intros N I. apply (Permutation_NoDup (Permutation_cons_append l x)). now constructor.
Qed.
Lemma register_inv acc db id a n db' x : inv acc db -> dns_register db id a n = (db', x) ->
  inv (acc_step acc (mkRec id a n) x) db'.
Proof.
  intros I E. pose proof (register_cases _ _ id a n I) as C. rewrite E in C. destruct x as [e|]; cbn [acc_step].
  - destruct C as (-> & _). exact I.
  - destruct C as (R & Na & Nn & ->). constructor; cbn [name_index addr_index].
    + rewrite map_app. apply nodup_snoc; [apply I|exact Nn].
    + rewrite map_app. apply nodup_snoc; [apply I|exact Na].
    + apply nodup_put, I.
    + intros b r. rewrite get_put. change (eqb b a) with (b =? a). rewrite in_app_iff. cbn [In].
      destruct (Z.eqb_spec b a) as [->|NE].
      * split.
        -- intros Er. inversion Er; subst. cbn. tauto.
        -- intros [[H|[<-|[]]] Ea]; [|reflexivity]. exfalso. apply Na. rewrite <- Ea. now apply in_map.
      * rewrite (inv_addr _ _ I). split; [tauto|].
        intros [[H|[<-|[]]] Ea]; [tauto|]. cbn in Ea. congruence.
    + intros b r. rewrite get_put. change (eqb b n) with (String.eqb b n). rewrite in_app_iff. cbn [In].
      destruct (String.eqb_spec b n) as [->|NE].
      * split.
        -- intros Er. inversion Er; subst. cbn. tauto.
        -- intros [[H|[<-|[]]] Ea]; [|reflexivity]. exfalso. apply Nn. rewrite <- Ea. now apply in_map.
      * rewrite (inv_name _ _ I). split; [tauto|].
        intros [[H|[<-|[]]] Ea]; [tauto|]. cbn in Ea. congruence.
    + intros r H. apply in_app_iff in H as [H|[<-|[]]]; [now apply (inv_free _ _ I)|exact R].
Qed.
Lemma run_inv l : forall acc db db' rs, inv acc db -> dns_run db l = (db', rs) -> inv (acc ++ accepted l rs) db'.
Proof.
  induction l as [|[id a n] l IH]; intros acc db db' rs I; cbn [dns_run r_id r_addr r_name]; intros E.
  - inversion E; subst. cbn. now rewrite app_nil_r.
  - destruct (dns_register db id a n) as [db1 x] eqn:Er. destruct (dns_run db1 l) as [db2 xs] eqn:El.
    inversion E; subst. pose proof (register_inv _ _ _ _ _ _ _ I Er) as I1.
    specialize (IH _ _ _ _ I1 El). destruct x; cbn [acc_step] in IH.
    + exact IH.
    + rewrite <- app_assoc in IH. exact IH.
Qed.
Lemma reach_inv l db rs : dns_run dns_new l = (db, rs) -> inv (accepted l rs) db.
Proof. intros E. exact (run_inv _ _ _ _ _ inv_new E). Qed.

Lemma accept_main l db rs id a n db' x :
  dns_run dns_new l = (db, rs) -> dns_register db id a n = (db', x) ->
  (x = None <-> ~ reserved a n /\ ~ In a (map r_addr (accepted l rs)) /\ ~ In n (map r_name (accepted l rs))) /\
  (x <> None -> db' = db).
Proof.
  intros E Er. apply reach_inv in E. pose proof (register_cases _ _ id a n E) as C. rewrite Er in C.
  destruct x as [e|].
  - destruct C as (-> & J). split; [|reflexivity]. split; [discriminate|]. intros (R & Na & Nn). exfalso.
    unfold reserved in R. destruct e; cbn in J; tauto.
  - split; [tauto|congruence].
Qed.
Lemma reason_main l db rs id a n db' e :
  dns_run dns_new l = (db, rs) -> dns_register db id a n = (db', Some e) -> justified (accepted l rs) a n e.
Proof.
  intros E Er. apply reach_inv in E. pose proof (register_cases _ _ id a n E) as C. rewrite Er in C. apply C.
Qed.
Lemma lookup_main l db rs : dns_run dns_new l = (db, rs) ->
  (forall n a, name_to_addr db n = Some a <-> exists id, In (mkRec id a n) (accepted l rs)) /\
  (forall a n, addr_to_name db a = Some n <-> exists id, In (mkRec id a n) (accepted l rs)) /\
  (forall a id, addr_to_host_id db a = Some id <-> exists n, In (mkRec id a n) (accepted l rs)).
Proof.
  intros E. apply reach_inv in E. unfold name_to_addr, addr_to_name, addr_to_host_id. split; [|split].
  - intros n a. split.
    + destruct (get n (name_index db)) as [[id a' n']|] eqn:G; cbn; intros H; inversion H; subst.
      apply (inv_name _ _ E) in G as (M & Hn). cbn in Hn. subst. eauto.
    + intros (id & M). rewrite (proj2 (inv_name _ _ E n (mkRec id a n))) by auto. reflexivity.
  - intros a n. split.
    + destruct (get a (addr_index db)) as [[id a' n']|] eqn:G; cbn; intros H; inversion H; subst.
      apply (inv_addr _ _ E) in G as (M & Hn). cbn in Hn. subst. eauto.
    + intros (id & M). rewrite (proj2 (inv_addr _ _ E a (mkRec id a n))) by auto. reflexivity.
  - intros a n. split.
    + destruct (get a (addr_index db)) as [[id a' n']|] eqn:G; cbn; intros H; inversion H; subst.
      apply (inv_addr _ _ E) in G as (M & Hn). cbn in Hn. subst. eauto.
    + intros (id & M). rewrite (proj2 (inv_addr _ _ E a (mkRec n a id))) by auto. reflexivity.
Qed.
Lemma inverse_main l db rs : dns_run dns_new l = (db, rs) ->
  forall n a, name_to_addr db n = Some a <-> addr_to_name db a = Some n.
Proof. intros E n a. destruct (lookup_main _ _ _ E) as (-> & -> & _). reflexivity. Qed.
Lemma reserved_main l db rs : dns_run dns_new l = (db, rs) ->
  forall n a, name_to_addr db n = Some a -> ~ reserved a n.
Proof.
  intros E n a. rewrite (proj1 (lookup_main _ _ _ E)). intros (id & M). 
  apply reach_inv in E. exact (inv_free _ _ E _ M).
Qed.

(** * The hosts file *)
Definition addr_le (x y : record) : Prop := r_addr x <= r_addr y.
Lemma insert_perm r l : Permutation (insert_by_addr r l) (r :: l).
Proof.
  induction l as [|x l IH]; cbn; [auto|]. destruct (r_addr r <=? r_addr x); [reflexivity|].
  rewrite IH. apply perm_swap.
Qed.
Lemma sort_perm l : Permutation (sort_by_addr l) l.
Proof. induction l as [|x l IH]; cbn; [auto|]. rewrite insert_perm. auto. Qed.
Lemma insert_sorted r l : StronglySorted addr_le l -> StronglySorted addr_le (insert_by_addr r l).
Proof.
  induction 1 as [|x l S IH F]; cbn; [repeat constructor|]. unfold addr_le in *.
  destruct (Z.leb_spec (r_addr r) (r_addr x)) as [L|L].
  - constructor; [now constructor|]. constructor; [assumption|].
    apply (Forall_impl _ (fun y Hy => Z.le_trans _ _ _ L Hy) F).
  - constructor; [assumption|]. rewrite Forall_forall in *. intros y Hy.
    apply (Permutation_in _ (insert_perm r l)) in Hy as [<-|Hy]; [lia|now apply F].
Qed.
Lemma sort_sorted l : StronglySorted addr_le (sort_by_addr l).
Proof. induction l as [|x l IH]; cbn; [constructor|now apply insert_sorted]. Qed.
Lemma write_some l ls : write_lines l = Some ls -> ls = map (fun r => (r_addr r, r_name r)) l.
Proof.
  revert ls. induction l as [|r l IH]; cbn [write_lines map]; intros ls E; [now inversion E|].
  unfold assert_then in E. destruct (negb (any_whitespace (r_name r))); [|discriminate].
  destruct (write_lines l) as [ls'|]; ob_in E; [|discriminate]. inversion E. now rewrite (IH _ eq_refl).
Qed.
Lemma whitespace_iff s : any_whitespace s = true <-> name_has_space s.
Proof.
  unfold name_has_space. induction s as [|c s IH]; cbn [any_whitespace].
  - split; [discriminate|]. intros ([|i] & c & E & _); discriminate.
  - rewrite orb_true_iff, IH. assert (W : is_whitespace c = true <-> In (nat_of_ascii c) [9; 10; 12; 13; 32]%nat).
    { unfold is_whitespace. rewrite !orb_true_iff, !Nat.eqb_eq. cbn [In]. intuition. }
    rewrite W. split.
    + intros [H|(i & d & E & H)]; [exists O, c; auto|exists (S i), d; auto].
    + intros ([|i] & d & E & H); cbn in E; [inversion E; subst; auto|right; eauto].
Qed.
Lemma write_none l : write_lines l = None <-> exists r, In r l /\ name_has_space (r_name r).
Proof.
  induction l as [|r l IH]; cbn [write_lines].
  - split; [discriminate|]. intros (r & [] & _).
  - pose proof (whitespace_iff (r_name r)) as W. destruct (any_whitespace (r_name r)); cbn [negb assert_then].
    + split; [|reflexivity]. intros _. exists r. split; [now left|tauto].
    + destruct (write_lines l); ob.
      * split; [discriminate|]. intros (x & [<-|M] & S); [apply W in S; discriminate|].
        assert (Some l0 = None) by (apply IH; eauto). discriminate.
      * split; [|reflexivity]. intros _. destruct (proj1 IH eq_refl) as (x & M & S). exists x. split; [now right|auto].
Qed.

Lemma index_values acc db r : inv acc db -> In r (map snd (addr_index db)) <-> In r acc.
Proof.
  intros I. rewrite in_map_iff. split.
  - intros ([a r'] & <- & M). apply in_get in M; [|apply I]. now apply (inv_addr _ _ I) in M.
  - intros M. exists (r_addr r, r). split; [reflexivity|]. apply get_in, (inv_addr _ _ I). auto.
Qed.
Lemma index_addrs acc db : inv acc db -> map r_addr (map snd (addr_index db)) = keys (addr_index db).
Proof.
  intros I. unfold keys. rewrite map_map. apply map_ext_in. intros [a r] M. cbn.
  apply in_get in M; [|apply I]. now apply (inv_addr _ _ I) in M.
Qed.

Lemma hosts_main l db rs values lines : dns_run dns_new l = (db, rs) ->
  Permutation values (map snd (addr_index db)) -> dns_hosts_file values = Some lines ->
  exists rest, lines = (2130706433, "localhost"%string) :: rest /\
    StronglySorted Z.lt (map fst rest) /\
    (forall a n, In (a, n) rest <-> name_to_addr db n = Some a).
Proof.
  intros E P. unfold dns_hosts_file. destruct (write_lines (sort_by_addr values)) as [ls|] eqn:W; ob; [|discriminate].
  intros H. inversion H; subst. apply write_some in W. exists ls. split; [reflexivity|].
  destruct (lookup_main _ _ _ E) as (Lk & _ & _). apply reach_inv in E.
  assert (P' : Permutation (sort_by_addr values) (map snd (addr_index db))) by (rewrite sort_perm; exact P).
  split.
  - rewrite W, map_map. cbn [fst]. pose proof (sort_sorted values) as S.
    assert (ND : NoDup (map r_addr (sort_by_addr values))).
    { apply (Permutation_NoDup (Permutation_sym (Permutation_map r_addr P'))).
      rewrite (index_addrs _ _ E). apply E. }
    clear -S ND. induction S as [|x xs S IH F]; cbn; [constructor|]. cbn in ND. inversion ND as [|? ? Nin ND']; subst.
    constructor; [auto|]. rewrite Forall_forall in *. intros y Hy. specialize (F).
    apply in_map_iff in Hy as (r & <- & Hr). pose proof (F _ Hr) as L. unfold addr_le in L.
    assert (r_addr x <> r_addr r) by (intros C; apply Nin; rewrite C; now apply in_map). lia.
  - intros a n. rewrite Lk, W, in_map_iff. split.
    + intros ([id a' n'] & Hr & M). cbn in Hr. inversion Hr; subst. exists id.
      apply (index_values _ _ _ E), (Permutation_in _ P'), M.
    + intros (id & M). exists (mkRec id a n). split; [reflexivity|].
      apply (Permutation_in _ (Permutation_sym P')), (index_values _ _ _ E), M.
Qed.
Lemma hosts_panic_main l db rs values : dns_run dns_new l = (db, rs) ->
  Permutation values (map snd (addr_index db)) ->
  (dns_hosts_file values = None <-> exists r, In r (accepted l rs) /\ name_has_space (r_name r)).
Proof.
  intros E P. apply reach_inv in E. unfold dns_hosts_file.
  assert (P' : Permutation (sort_by_addr values) (map snd (addr_index db))) by (rewrite sort_perm; exact P).
  transitivity (write_lines (sort_by_addr values) = None).
  { destruct (write_lines (sort_by_addr values)); ob; split; congruence. }
  rewrite write_none. split; intros (r & M & S); exists r; (split; [|exact S]).
  - apply (index_values _ _ _ E), (Permutation_in _ P'), M.
  - apply (Permutation_in _ (Permutation_sym P')), (index_values _ _ _ E), M.
Qed.

Lemma sorted_lines_unique l1 : forall l2 : list (Z * string),
  StronglySorted Z.lt (map fst l1) -> StronglySorted Z.lt (map fst l2) ->
  (forall x, In x l1 <-> In x l2) -> l1 = l2.
Proof.
  induction l1 as [|x l1 IH]; intros [|y l2] S1 S2 H.
  - reflexivity.
  - exfalso. apply (proj2 (H y)). now left.
  - exfalso. apply (proj1 (H x)). now left.
  - cbn in S1, S2. inversion S1 as [|? ? S1' F1]; inversion S2 as [|? ? S2' F2]; subst.
    rewrite Forall_forall in F1, F2.
    assert (L1 : forall z, In z l1 -> fst x < fst z) by (intros z Hz; apply F1, in_map, Hz).
    assert (L2 : forall z, In z l2 -> fst y < fst z) by (intros z Hz; apply F2, in_map, Hz).
    assert (x = y).
    { destruct (proj1 (H x) (or_introl eq_refl)) as [->|Hx]; [reflexivity|].
      destruct (proj2 (H y) (or_introl eq_refl)) as [->|Hy]; [reflexivity|].
      specialize (L1 _ Hy). specialize (L2 _ Hx). lia. }
    subst y. f_equal. apply IH; try assumption. intros z. split; intros Hz.
    + destruct (proj1 (H z) (or_intror Hz)) as [->|]; [|assumption]. specialize (L1 _ Hz). lia.
    + destruct (proj2 (H z) (or_intror Hz)) as [->|]; [|assumption]. specialize (L2 _ Hz). lia.
Qed.
Lemma hosts_det_main l1 db1 rs1 values1 l2 db2 rs2 values2 :
  dns_run dns_new l1 = (db1, rs1) -> dns_run dns_new l2 = (db2, rs2) ->
  Permutation (accepted l1 rs1) (accepted l2 rs2) ->
  Permutation values1 (map snd (addr_index db1)) -> Permutation values2 (map snd (addr_index db2)) ->
  dns_hosts_file values1 = dns_hosts_file values2.
Proof.
  intros E1 E2 PA P1 P2.
  pose proof (hosts_panic_main _ _ _ _ E1 P1) as N1. pose proof (hosts_panic_main _ _ _ _ E2 P2) as N2.
  assert (N : dns_hosts_file values1 = None <-> dns_hosts_file values2 = None).
  { rewrite N1, N2. split; intros (r & M & S); exists r; (split; [|exact S]);
      [apply (Permutation_in _ PA M)|apply (Permutation_in _ (Permutation_sym PA) M)]. }
  destruct (dns_hosts_file values1) as [x|] eqn:F1, (dns_hosts_file values2) as [y|] eqn:F2; try reflexivity;
    try (exfalso; destruct N as (Na & Nb); try specialize (Na eq_refl); try specialize (Nb eq_refl); discriminate).
  destruct (hosts_main _ _ _ _ _ E1 P1 F1) as (r1 & -> & S1 & M1).
  destruct (hosts_main _ _ _ _ _ E2 P2 F2) as (r2 & -> & S2 & M2).
  do 2 f_equal. apply sorted_lines_unique; try assumption. intros [a n]. rewrite M1, M2.
  rewrite (proj1 (lookup_main _ _ _ E1)), (proj1 (lookup_main _ _ _ E2)).
  split; intros (id & M); exists id; [apply (Permutation_in _ PA M)|apply (Permutation_in _ (Permutation_sym PA) M)].
Qed.
