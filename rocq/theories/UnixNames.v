(** Names, connections waiting to be accepted, and calls that crash the simulation. *)
From Verif Require Import Base FMap UnixModel UnixSpec UnixFacts UnixInv UnixOps UnixSend UnixWorld UnixNotes UnixReady UnixTraces UnixDeliver UnixWaits.

(* ------------------------------------------------------------------ names chosen by the kernel *)
Definition hexdigit (c : Z) : Prop := 48 <= c <= 57 \/ 97 <= c <= 102.
Definition five (n : list Z) : Prop := length n = 5%nat /\ Forall hexdigit n.
Lemma letter_small d : 0 <= d < 16 -> letter d = if d <? 6 then d + 97 else d + 42.
Proof.
  intro B. unfold letter. rewrite Z.mod_small by lia.
  assert (C : forallb (fun i => nth i CHARSET 0 =? (if Z.of_nat i <? 6 then Z.of_nat i + 97 else Z.of_nat i + 42)) (seq 0 16) = true) by (vm_compute; reflexivity).
  rewrite forallb_forall in C. specialize (C (Z.to_nat d)). rewrite Z2Nat.id in C by lia. apply Z.eqb_eq, C, in_seq. lia.
Qed.
Lemma letter_mod i j : i mod 16 = j mod 16 -> letter i = letter j.
Proof. unfold letter. intros ->. reflexivity. Qed.
Lemma letter_hex i : hexdigit (letter i).
Proof.
  rewrite (letter_mod i (i mod 16)) by (rewrite Z.mod_mod; lia). pose proof (Z.mod_pos_bound i 16 ltac:(lia)) as B. rewrite letter_small by lia.
  unfold hexdigit. destruct (Z.ltb_spec (i mod 16) 6); lia.
Qed.
Definition value (c : Z) : Z := if c <? 97 then c - 42 else c - 97.
Lemma letter_value c : hexdigit c -> 0 <= value c < 16 /\ letter (value c) = c.
Proof.
  unfold hexdigit, value. intro H. destruct (Z.ltb_spec c 97); (split; [lia|]); rewrite letter_small by lia.
  - destruct (Z.ltb_spec (c - 42) 6); lia.
  - destruct (Z.ltb_spec (c - 97) 6); lia.
Qed.
Lemma incremental_onto n : five n -> exists i, 0 <= i < N_NAMES /\ incremental_name i = n.
Proof.
  intros (L & F). destruct n as [|a [|b [|c [|d [|e [|]]]]]]; try discriminate L. repeat (apply Forall_cons_iff in F as (? & F)).
  destruct (letter_value a) as (V & W), (letter_value b) as (V0 & W0), (letter_value c) as (V1 & W1), (letter_value d) as (V2 & W2), (letter_value e) as (V3 & W3); auto.
  set (a' := value a) in *. set (b' := value b) in *. set (c' := value c) in *. set (d' := value d) in *. set (e' := value e) in *.
  exists (a' * 65536 + b' * 4096 + c' * 256 + d' * 16 + e'). unfold N_NAMES. split; [lia|]. unfold incremental_name.
  repeat f_equal.
  - rewrite <- W. apply letter_mod. f_equal. symmetry. apply (Z.div_unique _ _ _ (b' * 4096 + c' * 256 + d' * 16 + e')); lia.
  - rewrite <- W0. apply letter_mod. replace (_ / 4096) with (b' + a' * 16); [apply Z.mod_add; lia|]. apply (Z.div_unique _ _ _ (c' * 256 + d' * 16 + e')); lia.
  - rewrite <- W1. apply letter_mod. replace (_ / 256) with (c' + (a' * 16 + b') * 16); [apply Z.mod_add; lia|]. apply (Z.div_unique _ _ _ (d' * 16 + e')); lia.
  - rewrite <- W2. apply letter_mod. replace (_ / 16) with (d' + (a' * 256 + b' * 16 + c') * 16); [apply Z.mod_add; lia|]. apply (Z.div_unique _ _ _ e'); lia.
  - rewrite <- W3. apply letter_mod. replace (a' * 65536 + b' * 4096 + c' * 256 + d' * 16 + e') with (e' + (a' * 4096 + b' * 256 + c' * 16 + d') * 16) by lia. apply Z.mod_add. lia.
Qed.
Lemma linear_none k : forall i f, linear_search k i f = None -> forall j, i <= j < i + Z.of_nat k -> f (incremental_name j) = true.
Proof.
  induction k as [|k IH]; intros i f H j B; [lia|]. cbn [linear_search] in H. destruct (f (incremental_name i)) eqn:E; [|discriminate].
  destruct (Z.eq_dec i j) as [->|]; auto. apply (IH (i + 1) f H). lia.
Qed.
Lemma linear_five k : forall i f n, linear_search k i f = Some n -> five n.
Proof.
  induction k as [|k IH]; intros i f n H; cbn [linear_search] in H; [discriminate|]. destruct (f (incremental_name i)); [eauto|].
  injection H as <-. split; [reflexivity|]. unfold incremental_name. repeat (apply Forall_cons; [apply letter_hex|]); apply Forall_nil.
Qed.
Lemma autobind_spec f draws : match autobind_name f draws with
  | Some n => five n /\ f n = false
  | None => forall n, five n -> f n = true end.
Proof.
  destruct (autobind_name f draws) as [n|] eqn:E.
  - split; [|eapply autobind_free; eauto]. unfold autobind_name in E. destruct (find _ _) as [m|] eqn:F; [|eapply linear_five; eauto].
    injection E as <-. apply find_some in F as (F & _). apply in_map_iff in F as ([[[[a b] c] d] e] & <- & _). split; [reflexivity|].
    cbn. repeat (apply Forall_cons; [apply letter_hex|]); apply Forall_nil.
  - intros n H. unfold autobind_name in E. destruct (find _ _); [discriminate|]. destruct (incremental_onto n H) as (i & B & <-).
    apply (linear_none _ 0 f E). rewrite Z2Nat.id by (unfold N_NAMES; lia). lia.
Qed.

(* ------------------------------------------------------------------ who has a name *)
(** The event gave socket [x] the name [n]. *)
Definition named1 (x : Z) (n : list Z) (e : event) : Prop :=
  match e with
  | (S0, Bind z (AUnix (0 :: m)) _, ROk) => z = x /\ m = n
  | (S0, Bind z (AUnix []) d, ROk) => z = x /\ exists k, ks S0 z = Some k /\ autobind_name (taken S0 (k_type k)) d = Some n
  | _ => False
  end.
Definition named (x : Z) (n : list Z) (evs : list event) : Prop := Exists (named1 x n) evs.
Definition owners (S : kstate) (evs : list event) : Prop :=
  (forall x n, named x n evs -> exists k, ks S x = Some k /\ (gone k = true \/ (k_name k = Some (0 :: n) /\ ks_names S (k_type k) n = Some x))) /\
  (forall t n x, ks_names S t n = Some x -> named x n evs).
Lemma named_snoc x n evs e : named x n (evs ++ [e]) <-> named x n evs \/ named1 x n e.
Proof. unfold named. rewrite Exists_app. split; intros [H|H]; auto. inversion H as [|? ? N]; subst; auto. inversion N. Qed.
(** Names only go when their owner goes. *)
Lemma step_names S o S' r : KInv S -> s_step S o = Some (S', r) -> forall t n x, ks_names S' t n = Some x ->
  ks_names S t n = Some x \/ (exists k, ks S x = Some k /\ k_name k = None /\ k_type k = t /\ gone k = false /\ named1 x n (S, o, r)).
Proof.
  intros KI H t n x N. destruct o.
  7:{ pose proof (step_send _ _ _ _ _ _ _ _ _ _ H) as E. destruct r; try contradiction; try (subst; auto; fail).
      destruct E as (? & ? & ? & _ & _ & _ & _ & _ & _ & _ & _ & _ & _ & ->). auto. }
  7:{ pose proof (step_recv _ _ _ _ _ _ _ _ _ _ H) as E. destruct r; try contradiction; try (subst; auto; fail).
      destruct E as (k & _ & _ & _ & _ & E). destruct (k_role k); try contradiction.
      - destruct E as (_ & E). destruct (k_in k) as [|[[? ?] ?] ?]; [destruct E as (_ & -> & _); auto|].
        destruct (k_type k); destruct E as (_ & _ & _ & ->); auto.
      - destruct E as (? & ? & ? & ? & _ & _ & E). destruct (k_type k); destruct E as (_ & _ & _ & ->); auto. }
  7:{ left. cbn in H. injection H as <- <-. clear KI. revert S N.
      assert (B : forall S z, ks_names (bury S z) t n = Some x -> ks_names S t n = Some x).
      { intros S z. unfold bury. destruct (ks S z); auto. cbn. destruct (ks_names S t n) as [y|]; auto. destruct (y =? z); [discriminate|auto]. }
      assert (BL : forall q S, ks_names (fold_left bury q S) t n = Some x -> ks_names S t n = Some x).
      { induction q as [|c q IH]; intros S Q; auto. cbn in Q. apply IH in Q. eapply B; eauto. }
      induction l as [|z l IH]; intros S N; auto. cbn in N. apply IH in N. unfold s_close_one in N. destruct (ks S z) as [k|]; auto. destruct (k_fd k); auto.
      destruct (k_role k); eauto. }
  all: cbn in H.
  1, 2: injection H as <- <-; auto.
  all: unfold s_with in H; destruct (ks S x0) as [k|] eqn:K; [|injection H as <- <-; auto]; destruct (k_fd k) eqn:FD; [|injection H as <- <-; auto];
    try (injection H as <- <-; auto).
  - apply some_inj in H. pose proof (ki_fd S KI x0 k K FD) as GK.
    assert (CL : forall m, S' = k_claim_name S x0 k m -> k_name k = None -> (x = x0 -> n = m -> named1 x n (S, Bind x0 a draws, r)) ->
      ks_names S t n = Some x \/ (exists k, ks S x = Some k /\ k_name k = None /\ k_type k = t /\ gone k = false /\ named1 x n (S, Bind x0 a draws, r))).
    { intros m -> NN M. cbn in N. destruct (utype_eqb_ok t (k_type k)); cbn [andb] in N; auto. destruct (path_eqb_ok n m); auto. injection N as ->. right. exists k. auto 10. }
    unfold s_bind in H. destruct (k_role k); try (injection H as <- <-; auto);
      (destruct (k_name k) eqn:NN; [injection H as <- <-; auto|]); (destruct a as [[|c p]|]; [| |injection H as <- <-; auto]).
    + destruct (autobind_name _ _) as [m|] eqn:AB; injection H as <- <-; auto. apply (CL m); auto. intros -> ->. cbn. eauto.
    + destruct c; [destruct (taken _ _ _) eqn:TK|..]; injection H as <- <-; auto. apply (CL p); auto. intros -> ->. cbn. auto.
    + destruct (autobind_name _ _) as [m|] eqn:AB; injection H as <- <-; auto. apply (CL m); auto. intros -> ->. cbn. eauto.
    + destruct c; [destruct (taken _ _ _) eqn:TK|..]; injection H as <- <-; auto. apply (CL p); auto. intros -> ->. cbn. auto.
  - apply some_inj in H. unfold s_listen in H. destruct (k_role k); [destruct (k_name k)|..]; injection H as <- <-; auto.
  - unfold s_connect in H. destruct (k_role k); destruct a as [p|]; try (injection H as <- <-; auto; fail).
    + destruct (owner _ _ _) as [y|]; [|injection H as <- <-; auto]. destruct (y =? x0); [discriminate|]. destruct (ks S y) as [srv|]; [|discriminate].
      destruct (k_role srv); try (injection H as <- <-; auto; fail). destruct (_ <=? _); injection H as <- <-; auto.
    + destruct (owner _ _ _) as [y|]; injection H as <- <-; auto.
  - unfold s_accept in H. destruct (k_role k) as [|[|c q] lim| | |]; try (injection H as <- <-; auto; fail).
    destruct (ks S c) as [ch|]; [|discriminate]. destruct (k_role ch); try discriminate. injection H as <- <-. auto.
Qed.
Lemma named1_effect S o S' r x n : KInv S -> s_step S o = Some (S', r) -> named1 x n (S, o, r) ->
  exists k, ks S x = Some k /\ k_name k = None /\ taken S (k_type k) n = false /\ ks_names S' (k_type k) n = Some x /\
            exists k', ks S' x = Some k' /\ k_name k' = Some (0 :: n) /\ k_type k' = k_type k /\ gone k' = false.
Proof.
  intros KI H N. unfold named1 in N. destruct o; try contradiction. destruct a as [p|]; [|contradiction].
  assert (R : r = ROk) by (destruct p as [|[| |] p]; destruct r; try contradiction; auto). subst r. cbn in H. unfold s_with in H.
  destruct (ks S x0) as [k|] eqn:K; [|discriminate H]. destruct (k_fd k) eqn:FD; [|discriminate H]. apply some_inj in H.
  pose proof (ki_fd S KI x0 k K FD) as GK. unfold s_bind in H.
  assert (CL : S' = k_claim_name S x0 k n -> x0 = x -> taken S (k_type k) n = false -> k_name k = None ->
    exists k, ks S x = Some k /\ k_name k = None /\ taken S (k_type k) n = false /\ ks_names S' (k_type k) n = Some x /\
            exists k', ks S' x = Some k' /\ k_name k' = Some (0 :: n) /\ k_type k' = k_type k /\ gone k' = false).
  { intros -> -> T NN. exists k. split; auto. split; auto. split; auto. split.
    - cbn. destruct (utype_eqb_ok (k_type k) (k_type k)); [|congruence]. destruct (path_eqb_ok n n); [|congruence]. reflexivity.
    - cbn. rewrite Z.eqb_refl. eexists. split; [reflexivity|]. cbn. auto. }
  destruct (k_role k); try discriminate H; (destruct (k_name k) eqn:NN; [discriminate H|]); (destruct p as [|[| |] p]; try discriminate H).
  - destruct N as (-> & k1 & K1 & AB). assert (k1 = k) by congruence. subst k1. rewrite AB in H. injection H as <-. apply CL; auto. eapply autobind_free; eauto.
  - destruct (taken _ _ _) eqn:T; [discriminate H|]. injection H as <-. destruct N as (-> & ->). auto.
  - destruct N as (-> & k1 & K1 & AB). assert (k1 = k) by congruence. subst k1. rewrite AB in H. injection H as <-. apply CL; auto. eapply autobind_free; eauto.
  - destruct (taken _ _ _) eqn:T; [discriminate H|]. injection H as <-. destruct N as (-> & ->). auto.
Qed.
(** A socket keeps its name until it goes. *)
Lemma step_name S o S' r x k : KInv S -> KInv S' -> s_step S o = Some (S', r) -> ks S x = Some k ->
  forall p, ks_names S (k_type k) p = Some x -> exists k', ks S' x = Some k' /\ (gone k' = true \/ (k_name k' = k_name k /\ k_type k' = k_type k /\ ks_names S' (k_type k) p = Some x)).
Proof.
  intros KI KI' H K p N. destruct (step_onward S o S' r KI H) as (O1 & O2). destruct (O1 x k K) as (k' & K' & T' & L). exists k'. split; auto.
  destruct (gone k') eqn:G; auto. right. assert (NN : ks_names S' (k_type k) p = Some x) by (apply O2; auto; unfold is_gone; rewrite K'; auto).
  split; auto. destruct (ki_name S KI _ _ _ N) as (k1 & K1 & _ & _ & N1). destruct (ki_name S' KI' _ _ _ NN) as (k2 & K2 & _ & _ & N2). congruence.
Qed.
Lemma owners_step S evs o S' r : KInv S -> KInv S' -> owners S evs -> clean o -> s_step S o = Some (S', r) -> owners S' (evs ++ [(S, o, r)]).
Proof.
  intros KI KI' (W1 & W2) _ H. split.
  - intros x n N. apply named_snoc in N as [N|N].
    + destruct (W1 x n N) as (k & K & [G|(NK & NM)]).
      * destruct (step_gone S o S' r x KI H k K G) as (k' & K' & G'). eauto.
      * destruct (step_name S o S' r x k KI KI' H K n NM) as (k' & K' & [G|(N1 & T1 & N2)]); exists k'; split; auto. right. split; congruence.
    + destruct (named1_effect S o S' r x n KI H N) as (k & K & _ & _ & NM & k' & K' & N' & T' & G'). exists k'. split; auto. right. split; congruence.
  - intros t n x N. apply named_snoc. destruct (step_names S o S' r KI H t n x N) as [O|(k & _ & _ & _ & _ & NN)]; eauto.
Qed.
Theorem owners_all ops S evs : Forall clean ops -> history k_init ops = Some (S, evs) -> owners S evs.
Proof.
  intros C H. eapply (history_ind owners); eauto; [|intros; eapply owners_step; eauto]. split; [intros x n N; inversion N|intros; discriminate].
Qed.
