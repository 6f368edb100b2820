(** Proofs about the listening socket: its lists follow its children. *)
From Coq Require Import Permutation.
From Verif Require Import Base FMap SeqModel SeqSpec TcpBufModel TcpBufSpec TcpConnModel TcpConnSpec TcpSoloSpec TcpStateModel TcpStateSpec TcpListenSpec.

(** * Lists *)
Lemma remove_first_in k j l : NoDup l -> In j (remove_first k l) <-> In j l /\ j <> k.
Proof.
  induction l as [|x l IH]; intros ND; cbn; [tauto|]. inversion ND as [|? ? NI ND']; subst. destruct (Z.eqb_spec x k) as [-> |N].
  - split; [intros I; split; [auto|intros ->; contradiction]|]. intros ([X|X] & Y); [congruence|exact X].
  - cbn. rewrite IH by exact ND'. intuition congruence.
Qed.
Lemma remove_first_nodup k l : NoDup l -> NoDup (remove_first k l).
Proof.
  induction l as [|x l IH]; intros ND; cbn; [constructor|]. inversion ND as [|? ? NI ND']; subst. destruct (x =? k); [exact ND'|]. constructor; [|auto]. rewrite remove_first_in by exact ND'. tauto.
Qed.
Lemma remove_first_filter k l : NoDup l -> remove_first k l = filter (fun x => negb (x =? k)) l.
Proof.
  induction l as [|x l IH]; intros ND; cbn; [reflexivity|]. inversion ND as [|? ? NI ND']; subst. destruct (Z.eqb_spec x k) as [-> |N]; cbn; [|now rewrite IH].
  clear - NI. induction l as [|y l IH]; cbn; [reflexivity|]. destruct (Z.eqb_spec y k) as [-> |N]; [exfalso; apply NI; now left|]. cbn. rewrite <- IH; [reflexivity|]. intros I. apply NI. now right.
Qed.
Lemma remove_first_none k l : ~ In k l -> remove_first k l = l.
Proof. induction l as [|x l IH]; intros NI; cbn; [reflexivity|]. destruct (Z.eqb_spec x k) as [-> |N]; [exfalso; apply NI; now left|]. rewrite IH; [reflexivity|]. intros I. apply NI. now right. Qed.
Lemma contains_in k l : contains_key k l = true <-> In k l.
Proof. unfold contains_key. rewrite existsb_exists. split; [intros (x & I & E); apply Z.eqb_eq in E; now subst|]. intros I. exists k. split; [exact I|apply Z.eqb_refl]. Qed.
Lemma listed_in k l : listed k l = true <-> In k l. Proof. exact (contains_in k l). Qed.

(** * The slot map *)
Lemma get_cons {V} (j i : Z) (x : V) m : get j ((i, x) :: m) = if eqb j i then Some x else get j m. Proof. reflexivity. Qed.
Lemma get_replace k v ch j : In k (map fst ch) -> get j (replace_child k v ch) = if j =? k then Some v else get j ch.
Proof.
  induction ch as [|(i, x) ch IH]; cbn [map fst]; intros I; [contradiction I|]. unfold replace_child. cbn [map fst]. destruct (Z.eqb_spec i k) as [-> |N].
  - rewrite !get_cons. destruct (eqb_ok j k) as [-> |N]; [now rewrite Z.eqb_refl|]. apply Z.eqb_neq in N. rewrite N.
    destruct (in_dec Z.eq_dec k (map fst ch)) as [D|D].
    + fold (replace_child k v ch). rewrite (IH D), N. reflexivity.
    + fold (replace_child k v ch). replace (replace_child k v ch) with ch; [reflexivity|]. clear - D. unfold replace_child. induction ch as [|(i, x) ch IH]; cbn; [reflexivity|]. cbn in D. destruct (Z.eqb_spec i k); [tauto|]. rewrite <- IH; tauto.
  - destruct I as [I|I]; [congruence|]. fold (replace_child k v ch). rewrite !get_cons. rewrite (IH I). destruct (eqb_ok j i) as [-> |N']; [|reflexivity]. apply Z.eqb_neq in N. now rewrite N.
Qed.
Lemma keys_replace k v ch : map fst (replace_child k v ch) = map fst ch.
Proof. unfold replace_child. rewrite map_map. apply map_ext_in. intros (i, x) _. cbn. destruct (Z.eqb_spec i k); cbn; congruence. Qed.
Lemma swap_perm k v ch : NoDup (map fst ch) -> In (k, v) ch -> Permutation ch ((k, v) :: swap_remove k ch).
Proof.
  intros ND I. unfold swap_remove. destruct (rev ch) as [|lst front] eqn:R.
  - apply (f_equal (@rev _)) in R. rewrite rev_involutive in R. subst. contradiction I.
  - apply (f_equal (@rev _)) in R. rewrite rev_involutive in R. cbn in R. set (fr := rev front) in *. clearbody fr. subst ch.
    rewrite map_app in ND. apply in_app_iff in I. destruct I as [I|[I|[]]].
    + apply in_split in I. destruct I as (f1 & f2 & ->). rewrite map_app in *. cbn [map fst] in *. rewrite Z.eqb_refl.
      assert (EQ : forall f, ~ In k (map fst f) -> map (fun x : Z * (tcp * (Z * Z)) => if fst x =? k then lst else x) f = f).
      { induction f as [|x f IH]; intros NI; cbn; [reflexivity|]. cbn in NI. destruct (Z.eqb_spec (fst x) k); [tauto|]. rewrite IH; tauto. }
      rewrite <- app_assoc in ND. cbn [app] in ND. pose proof (NoDup_remove_2 _ _ _ ND) as NI. rewrite !in_app_iff in NI. cbn in NI. rewrite !EQ by tauto.
      rewrite <- app_assoc. cbn [app]. rewrite <- Permutation_middle. constructor. apply Permutation_app_head. rewrite Permutation_app_comm. reflexivity.
    + subst lst. cbn [map fst app] in ND. rewrite Permutation_app_comm. cbn [app]. constructor. apply NoDup_remove_2 in ND. rewrite app_nil_r in ND.
      assert (EQ : map (fun x : Z * (tcp * (Z * Z)) => if fst x =? k then (k, v) else x) fr = fr); [|now rewrite EQ].
      clear - ND. induction fr as [|x f IH]; cbn; [reflexivity|]. cbn in ND. destruct (Z.eqb_spec (fst x) k); [tauto|]. rewrite IH; tauto.
Qed.
Lemma swap_nodup k v ch : NoDup (map fst ch) -> In (k, v) ch -> NoDup (map fst (swap_remove k ch)) /\ ~ In k (map fst (swap_remove k ch)).
Proof.
  intros ND I. pose proof (Permutation_map fst (swap_perm k v ch ND I)) as P. pose proof (Permutation_NoDup P ND) as N. cbn in N. inversion N; auto.
Qed.
Lemma get_swap k v ch j : NoDup (map fst ch) -> In (k, v) ch -> get j (swap_remove k ch) = if j =? k then None else get j ch.
Proof.
  intros ND I. pose proof (swap_perm k v ch ND I) as P. destruct (swap_nodup k v ch ND I) as (N1 & N2). destruct (Z.eqb_spec j k) as [-> |N].
  - now apply get_none.
  - rewrite (get_perm j _ _ P ND). rewrite get_cons. destruct (eqb_ok j k); [contradiction|reflexivity].
Qed.
Lemma keys_swap k v ch j : NoDup (map fst ch) -> In (k, v) ch -> In j (map fst (swap_remove k ch)) <-> In j (map fst ch) /\ j <> k.
Proof.
  intros ND I. pose proof (Permutation_map fst (swap_perm k v ch ND I)) as P. destruct (swap_nodup k v ch ND I) as (N1 & N2). cbn [map fst] in P. split.
  - intros J. split; [|intros ->; contradiction]. eapply Permutation_in; [symmetry; exact P|]. now right.
  - intros (J & N). apply (Permutation_in _ P) in J. destruct J as [J|J]; [congruence|exact J].
Qed.

(** * The lists follow the children *)
Definition wants_at (l : listener) (k : Z) : Prop := exists t a, kid l k = Some (t, a) /\ t_wants t = Some true.
Record lok_but (x : option Z) (l : listener) : Prop := {
  lk_nd : NoDup (kids l);
  lk_next : forall k, In k (kids l) -> k < l_next l;
  lk_map : forall k t a, kid l k = Some (t, a) -> get a (l_map l) = Some k;
  lk_back : forall a k, get a (l_map l) = Some k -> exists t, kid l k = Some (t, a);
  lk_acc_nd : NoDup (l_accept l);
  lk_acc : forall k, x <> Some k -> In k (l_accept l) <-> made_at l k = true;
  lk_send_nd : NoDup (l_send l);
  lk_send : forall k, x <> Some k -> In k (l_send l) <-> wants_at l k;
  lk_kid : forall k t a, x <> Some k -> kid l k = Some (t, a) -> t_wants t <> None /\ p_closed (t_poll t) = false;
  lk_gone : forall k, kid l k = None -> ~ In k (l_accept l) /\ ~ In k (l_send l);
  lk_buf : l_buf l = [] }.
Definition lok := lok_but None.
Lemma made_acceptable t : acceptable (t_sock t) = made t.
Proof. unfold made, phase_of, acceptable. destruct (t_sock t) as [ | [] | | ]; reflexivity. Qed.
Lemma closed_made t : p_closed (t_poll t) = true -> made t = false.
Proof. unfold made, phase_of, t_poll. destruct (t_sock t) as [ | [] | | ]; cbn; congruence. Qed.
Lemma closed_wants t : p_closed (t_poll t) = true -> t_wants t = Some false.
Proof. unfold t_wants, t_poll. destruct (t_sock t) as [ | [] | | ]; cbn; congruence. Qed.
Lemma kid_in l k v : kid l k = Some v -> In (k, v) (l_children l). Proof. apply get_in. Qed.
Lemma kid_key l k v : kid l k = Some v -> In k (kids l). Proof. intros K. apply kid_in in K. apply in_map_iff. exists (k, v). auto. Qed.
Lemma key_kid l k : In k (kids l) -> exists v, kid l k = Some v. Proof. intros I. exact (keys_get k (l_children l) I). Qed.
Lemma addr_eqb (a b : Z * Z) : eqb a b = true <-> a = b. Proof. destruct (eqb_ok a b); split; congruence. Qed.

(** The lists after the child [k] changed to [t]. *)
Definition acc_after (t : tcp) (k : Z) (acc : list Z) : list Z := if made t then (if contains_key k acc then acc else acc ++ [k]) else remove_first k acc.
Definition send_after (w : bool) (k : Z) (send : list Z) : list Z := if w then (if contains_key k send then send else send ++ [k]) else remove_first k send.
Lemma add_nodup k l : NoDup l -> NoDup (if contains_key k l then l else l ++ [k]).
Proof.
  intros ND. destruct (contains_key k l) eqn:C; [exact ND|]. assert (~ In k l) by (rewrite <- contains_in; congruence).
  apply (Permutation_NoDup (Permutation_app_comm [k] l)). cbn. now constructor.
Qed.
Lemma add_in k l j : In j (if contains_key k l then l else l ++ [k]) <-> In j l \/ j = k.
Proof.
  destruct (contains_key k l) eqn:C.
  - apply contains_in in C. split; [auto|]. intros [I| ->]; auto.
  - rewrite in_app_iff. cbn. intuition.
Qed.
Record synced (l : listener) (k : Z) (t : tcp) (l' : listener) : Prop := {
  sy_ok : lok l';
  sy_kid : becomes l k t l';
  sy_acc : l_accept l' = acc_after t k (l_accept l);
  sy_send : exists w, t_wants t = Some w /\ l_send l' = send_after w k (l_send l);
  sy_next : l_next l' = l_next l;
  sy_sc : l_scaled l' = l_scaled l;
  sy_max : l_max l' = l_max l;
  sy_err : l_err l' = l_err l;
  sy_keys : forall j, In j (kids l') <-> In j (kids l) /\ (j = k -> p_closed (t_poll t) = false);
  sy_len : zlen (l_children l') = zlen (l_children l) - b2z (p_closed (t_poll t)) }.
Lemma remove_ok l k t a l' t' : lok_but (Some k) l -> kid l k = Some (t, a) -> remove_child l k = Some (l', t') ->
  t' = t /\ lok l' /\ (forall j, kid l' j = if j =? k then None else kid l j) /\ l_accept l' = remove_first k (l_accept l) /\ l_send l' = remove_first k (l_send l) /\
  l_next l' = l_next l /\ l_scaled l' = l_scaled l /\ l_max l' = l_max l /\ l_err l' = l_err l /\ Permutation (l_children l) ((k, (t, a)) :: l_children l').
Proof.
  intros OK K. unfold remove_child. unfold kid in K. rewrite K. ob. cbn [fst snd]. cbn [l_map set_lists set_children l_accept l_send]. rewrite (lk_map _ _ OK _ _ _ K), Z.eqb_refl. rewrite assert_true by reflexivity.
  intros E. injection E as <- <-. split; [reflexivity|]. pose proof (get_in _ _ _ K) as KI. pose proof (lk_nd _ _ OK) as ND. destruct (swap_nodup _ _ _ ND KI) as (N1 & N2).
  assert (KD : forall j, get j (swap_remove k (l_children l)) = if j =? k then None else kid l j) by (intros j; exact (get_swap k (t, a) _ j ND KI)).
  split; [|split; [exact KD|do 6 (split; [reflexivity|]); exact (swap_perm _ _ _ ND KI)]].
  constructor; unfold kids, made_at, wants_at, kid; cbn [l_children l_map l_accept l_send l_buf l_next set_map set_lists set_children].
  - exact N1.
  - intros j J. apply (keys_swap _ _ _ _ ND KI) in J. exact (lk_next _ _ OK _ (proj1 J)).
  - intros j u b J. rewrite KD in J. destruct (Z.eqb_spec j k) as [-> |N]; [discriminate J|]. rewrite get_del. pose proof (lk_map _ _ OK _ _ _ J) as M. destruct (eqb_ok b a) as [-> |N']; [|exact M].
    exfalso. apply N. pose proof (lk_map _ _ OK _ _ _ K). congruence.
  - intros b j J. rewrite get_del in J. destruct (eqb_ok b a) as [-> |N']; [discriminate J|]. destruct (lk_back _ _ OK _ _ J) as (u & U). exists u. rewrite KD. destruct (Z.eqb_spec j k) as [-> |N]; [|exact U]. exfalso. apply N'. unfold kid in U. congruence.
  - apply remove_first_nodup, (lk_acc_nd _ _ OK).
  - intros j _. rewrite remove_first_in by exact (lk_acc_nd _ _ OK). rewrite KD. destruct (Z.eqb_spec j k) as [-> |N].
    + split; [tauto|discriminate].
    + rewrite (lk_acc _ _ OK j) by congruence. unfold made_at. tauto.
  - apply remove_first_nodup, (lk_send_nd _ _ OK).
  - intros j _. rewrite remove_first_in by exact (lk_send_nd _ _ OK). rewrite KD. destruct (Z.eqb_spec j k) as [-> |N].
    + split; [tauto|]. intros (u & b & X & _). discriminate X.
    + rewrite (lk_send _ _ OK j) by congruence. unfold wants_at. tauto.
  - intros j u b _ J. rewrite KD in J. destruct (Z.eqb_spec j k) as [-> |N]; [discriminate J|]. apply (lk_kid _ _ OK j u b); [congruence|exact J].
  - intros j J. rewrite KD in J. rewrite !remove_first_in by first [exact (lk_acc_nd _ _ OK)|exact (lk_send_nd _ _ OK)]. destruct (Z.eqb_spec j k) as [JK|N]; [tauto|]. pose proof (lk_gone _ _ OK j J). tauto.
  - exact (lk_buf _ _ OK).
Qed.
Lemma sync_ok l k t a l' : lok_but (Some k) l -> kid l k = Some (t, a) -> sync_child l k = Some l' -> synced l k t l'.
Proof.
  intros OK K. unfold sync_child. unfold kid in K. rewrite K. ob. destruct (t_wants t) as [w|] eqn:W; [ob|discriminate].
  change (if w then if contains_key k (l_send l) then l_send l else l_send l ++ [k] else remove_first k (l_send l)) with (send_after w k (l_send l)). rewrite made_acceptable.
  change (if made t then if contains_key k (l_accept l) then l_accept l else l_accept l ++ [k] else remove_first k (l_accept l)) with (acc_after t k (l_accept l)).
  cbn [l_map set_lists]. rewrite (lk_map _ _ OK _ _ _ K), Z.eqb_refl. rewrite assert_true by reflexivity. set (l1 := set_lists l (acc_after t k (l_accept l)) (send_after w k (l_send l))).
  assert (A1 : NoDup (acc_after t k (l_accept l))) by (unfold acc_after; destruct (made t); [apply add_nodup|apply remove_first_nodup]; exact (lk_acc_nd _ _ OK)).
  assert (S1 : NoDup (send_after w k (l_send l))) by (unfold send_after; destruct w; [apply add_nodup|apply remove_first_nodup]; exact (lk_send_nd _ _ OK)).
  assert (A2 : forall j, In j (acc_after t k (l_accept l)) <-> if j =? k then made t = true else In j (l_accept l)).
  { intros j. unfold acc_after. destruct (Z.eqb_spec j k) as [-> |N]; destruct (made t); rewrite ?add_in, ?remove_first_in by exact (lk_acc_nd _ _ OK); intuition congruence. }
  assert (S2 : forall j, In j (send_after w k (l_send l)) <-> if j =? k then w = true else In j (l_send l)).
  { intros j. unfold send_after. destruct (Z.eqb_spec j k) as [-> |N]; destruct w; rewrite ?add_in, ?remove_first_in by exact (lk_send_nd _ _ OK); intuition congruence. }
  assert (OK1 : lok_but (if p_closed (t_poll t) then Some k else None) l1).
  { constructor; unfold l1, kids, made_at, wants_at, kid; cbn [l_children l_map l_accept l_send l_buf l_next set_lists].
    - exact (lk_nd _ _ OK). - exact (lk_next _ _ OK). - exact (lk_map _ _ OK). - exact (lk_back _ _ OK). - exact A1.
    - intros j J. rewrite A2. destruct (Z.eqb_spec j k) as [-> |N]; [rewrite K; tauto|]. rewrite (lk_acc _ _ OK j) by congruence. tauto.
    - exact S1.
    - intros j J. rewrite S2. destruct (Z.eqb_spec j k) as [-> |N].
      + split; [intros ->; eauto|]. intros (u & b & X & Y). rewrite K in X. injection X as <- <-. congruence.
      + rewrite (lk_send _ _ OK j) by congruence. tauto.
    - intros j u b J X. destruct (Z.eq_dec j k) as [-> |N]; [|apply (lk_kid _ _ OK j u b); [congruence|exact X]]. rewrite K in X. injection X as <- <-. destruct (p_closed (t_poll t)); [congruence|]. split; [congruence|reflexivity].
    - intros j J. rewrite A2, S2. destruct (Z.eqb_spec j k) as [-> |N]; [congruence|]. exact (lk_gone _ _ OK j J).
    - exact (lk_buf _ _ OK). }
  assert (KI : In k (kids l)) by exact (kid_key l k _ K).
  destruct (p_closed (t_poll t)) eqn:C.
  - destruct (remove_child l1 k) as [(l2, t2)|] eqn:R; [ob|discriminate]. intros E. injection E as <-. cbn [fst].
    destruct (remove_ok l1 k t a l2 t2 OK1 K R) as (_ & R1 & R2 & R3 & R4 & R5 & R6 & R7 & R8 & R9).
    constructor; auto.
    + intros j. rewrite C. rewrite R2. destruct (j =? k); [|reflexivity]. destruct (kid l k) as [(u, b)|]; reflexivity.
    + rewrite R3. unfold l1. cbn [set_lists l_accept]. unfold acc_after. rewrite (closed_made t C). apply remove_first_none. rewrite remove_first_in by exact (lk_acc_nd _ _ OK). tauto.
    + exists w. split; [exact W|]. rewrite R4. unfold l1. cbn [set_lists l_send]. unfold send_after. assert (w = false) as -> by (pose proof (closed_wants t C); congruence). apply remove_first_none. rewrite remove_first_in by exact (lk_send_nd _ _ OK). tauto.
    + intros j. rewrite C. pose proof (Permutation_map fst R9) as P. pose proof (lk_nd _ _ R1) as N1. pose proof (Permutation_NoDup P (lk_nd _ _ OK)) as N2. cbn [map fst] in P, N2. split.
      * intros J. split; [eapply Permutation_in; [symmetry; exact P|now right]|]. intros ->. inversion N2; contradiction.
      * intros (J & N). apply (Permutation_in _ P) in J. destruct J as [J|J]; [|exact J]. symmetry in J. specialize (N J). discriminate N.
    + pose proof (Permutation_length R9) as P. unfold l1 in P. cbn [set_lists l_children length] in P. rewrite C. unfold zlen. cbn [b2z]. rewrite P, Nat2Z.inj_succ. lia.
  - intros E. injection E as <-. constructor; auto.
    + intros j. unfold l1, kid. cbn [set_lists l_children]. rewrite K, C. destruct (Z.eqb_spec j k) as [-> |N]; [exact K|reflexivity].
    + exists w. split; [exact W|reflexivity].
    + intros j. rewrite C. split; [auto|]. intros (J & _). exact J.
    + rewrite C. cbn [b2z]. unfold l1. cbn [set_lists l_children]. lia.
Qed.

Lemma lok_weaken x k l : x = None \/ x = Some k -> lok_but x l -> lok_but (Some k) l.
Proof.
  intros X [A B C D E F G H I J L]. constructor; auto.
  - intros j N. apply F. destruct X as [-> | ->]; congruence.
  - intros j N. apply H. destruct X as [-> | ->]; congruence.
  - intros j t a N. apply I. destruct X as [-> | ->]; congruence.
Qed.
Lemma with_child_ok {A} x l k (f : tcp -> option (tcp * A)) l' o : lok_but x l -> x = None \/ x = Some k -> with_child l k f = Some (l', o) ->
  match kid l k with
  | None => l' = l /\ o = None
  | Some (t, a) => exists t' r, f t = Some (t', r) /\ o = Some r /\ synced l k t' l'
  end.
Proof.
  intros OK X. apply (lok_weaken x k l X) in OK. unfold with_child, kid. destruct (get k (l_children l)) as [(t, a)|] eqn:K.
  2: { intros E. injection E as <- <-. auto. }
  destruct (f t) as [(t', r)|]; [ob|discriminate]. set (l1 := set_children l (replace_child k (t', a) (l_children l))). destruct (sync_child l1 k) as [l2|] eqn:S; [ob|discriminate]. intros E. injection E as <- <-. exists t', r. split; [reflexivity|]. split; [reflexivity|].
  assert (KI : In k (map fst (l_children l))) by exact (kid_key l k _ K).
  assert (KD : forall j, kid l1 j = if j =? k then Some (t', a) else kid l j) by (intros j; exact (get_replace k (t', a) (l_children l) j KI)).
  assert (KS : kids l1 = kids l) by (unfold kids, l1; cbn [set_children l_children]; apply keys_replace).
  assert (OK1 : lok_but (Some k) l1).
  { destruct OK as [O1 O2 O3 O4 O5 O6 O7 O8 O9 O10 O11]. constructor; auto.
    - now rewrite KS.
    - rewrite KS. exact O2.
    - intros j u b J. rewrite KD in J. destruct (Z.eqb_spec j k) as [-> |N]; [|exact (O3 _ _ _ J)]. injection J as <- <-. exact (O3 _ _ _ K).
    - intros b j J. destruct (O4 _ _ J) as (u & U). rewrite KD. destruct (Z.eqb_spec j k) as [-> |N]; [|eauto]. unfold kid in U. rewrite K in U. injection U as _ <-. eauto.
    - intros j J. unfold made_at. rewrite KD. destruct (Z.eqb_spec j k) as [-> |N]; [congruence|]. exact (O6 j J).
    - intros j J. unfold wants_at. rewrite KD. destruct (Z.eqb_spec j k) as [-> |N]; [congruence|]. exact (O8 j J).
    - intros j u b J. rewrite KD. destruct (Z.eqb_spec j k) as [-> |N]; [congruence|]. exact (O9 j u b J).
    - intros j J. rewrite KD in J. destruct (Z.eqb_spec j k) as [JK|N]; [discriminate J|]. exact (O10 j J). }
  assert (K1 : kid l1 k = Some (t', a)) by (rewrite KD, Z.eqb_refl; reflexivity).
  destruct (sync_ok l1 k t' a l2 OK1 K1 S) as [S1 S2 S3 S4 S5 S6 S7 S8 S9 S10]. constructor; auto.
  - intros j. rewrite S2, K1. unfold kid at 2. rewrite K. destruct (Z.eqb_spec j k) as [-> |N]; [reflexivity|]. rewrite KD. apply Z.eqb_neq in N. now rewrite N.
  - rewrite KS in S9. exact S9.
  - rewrite S10. unfold l1. cbn [set_children l_children]. unfold zlen, replace_child. now rewrite map_length.
Qed.
Lemma who_kid x l k t a : lok_but x l -> who l a = Some (k, t) <-> kid l k = Some (t, a).
Proof.
  intros OK. unfold who. split.
  - destruct (find _ (l_children l)) as [(j, (u, b))|] eqn:F; [|discriminate]. intros E. injection E as -> ->. apply find_some in F. destruct F as (I & F). cbn [fst snd] in F. apply andb_true_iff in F. rewrite !Z.eqb_eq in F.
    assert (b = a) as -> by (destruct a, b; cbn in F; destruct F; congruence). exact (in_get k (t, a) (l_children l) (lk_nd _ _ OK) I).
  - intros K. pose proof (kid_in _ _ _ K) as I. destruct (find _ (l_children l)) as [(j, (u, b))|] eqn:F.
    + apply find_some in F. destruct F as (J & F). cbn [fst snd] in F. apply andb_true_iff in F. rewrite !Z.eqb_eq in F. assert (b = a) as -> by (destruct a, b; cbn in F; destruct F; congruence).
      assert (KJ : kid l j = Some (u, a)) by exact (in_get j (u, a) (l_children l) (lk_nd _ _ OK) J). pose proof (lk_map _ _ OK _ _ _ K). pose proof (lk_map _ _ OK _ _ _ KJ). assert (j = k) as -> by congruence. congruence.
    + exfalso. pose proof (find_none _ _ F _ I) as X. cbn [fst snd] in X. rewrite !Z.eqb_refl in X. discriminate X.
Qed.
Lemma who_map x l a : lok_but x l -> get a (l_map l) = match who l a with Some (k, _) => Some k | None => None end.
Proof.
  intros OK. destruct (who l a) as [(k, t)|] eqn:W.
  - apply (who_kid _ _ _ _ _ OK) in W. exact (lk_map _ _ OK _ _ _ W).
  - destruct (get a (l_map l)) as [k|] eqn:G; [|reflexivity]. destruct (lk_back _ _ OK _ _ G) as (t & K). apply (who_kid _ _ _ _ _ OK) in K. congruence.
Qed.

(** * Counting *)
Lemma perm_iff (l l' : list Z) : NoDup l -> NoDup l' -> (forall x, In x l <-> In x l') -> Permutation l l'.
Proof. apply NoDup_Permutation. Qed.
Lemma count_made l : lok l -> zlen (l_accept l) = n_made l.
Proof.
  intros OK. unfold n_made, zlen. f_equal. apply Permutation_length, perm_iff; [exact (lk_acc_nd _ _ OK)|apply NoDup_filter, (lk_nd _ _ OK)|]. intros k. rewrite filter_In, (lk_acc _ _ OK) by discriminate.
  split; [|tauto]. intros M. split; [|exact M]. unfold made_at in M. destruct (kid l k) as [v|] eqn:K; [|discriminate M]. eapply kid_key; eauto.
Qed.
Lemma filter_split {A} (f : A -> bool) l : zlen l = zlen (filter f l) + zlen (filter (fun x => negb (f x)) l).
Proof. induction l as [|x l IH]; [reflexivity|]. cbn [filter]. destruct (f x); cbn [negb]; unfold zlen in *; cbn [length]; lia. Qed.
Lemma count_rest l : lok l -> zlen (l_children l) - zlen (l_accept l) = n_rest l.
Proof. intros OK. rewrite (count_made l OK). unfold n_made, n_rest. pose proof (filter_split (made_at l) (kids l)) as F. unfold kids in F at 1. unfold zlen in F at 1. rewrite map_length in F. fold (zlen (l_children l)) in F. lia. Qed.

(** * The calls *)
Lemma register_ok now l h p l' : lok l -> who l (h_src h, h_dst h) = None -> register_child now l h p = Some l' ->
  exists t, child_new now (l_scaled l) h p = Some t /\ adds l (l_next l) t (h_src h, h_dst h) l' /\ lok l' /\ p_closed (t_poll t) = false /\ made t = false /\
    l_accept l' = l_accept l /\ l_next l' = l_next l + 1 /\ l_scaled l' = l_scaled l /\ l_max l' = l_max l /\ l_err l' = l_err l /\ zlen (l_children l') = zlen (l_children l) + 1 /\ phase_of t = PConn SynReceived.
Proof.
  intros OK WN. unfold register_child. destruct (child_new now (l_scaled l) h p) as [t|] eqn:CN; [ob|discriminate]. pose proof (who_map _ _ (h_src h, h_dst h) OK) as GM. rewrite WN in GM. unfold mem. rewrite GM. cbn [negb]. rewrite assert_true by reflexivity.
  set (k := l_next l) in *. set (a := (h_src h, h_dst h)) in *. match goal with |- sync_child ?u _ = _ -> _ => set (l1 := u) end. intros S. exists t. split; [reflexivity|].
  assert (PH : phase_of t = PConn SynReceived).
  { unfold child_new in CN. destruct (h_syn h); [rewrite assert_true in CN by reflexivity|discriminate CN]. destruct (h_rst h); [discriminate CN|]. cbn [negb] in CN. rewrite assert_true in CN by reflexivity.
    destruct (conn_new _ _ _ _) as [c|]; [|discriminate CN]. ob_in CN. destruct (push_packet c h p) as [r|]; [|discriminate CN]. ob_in CN. injection CN as <-. reflexivity. }
  assert (MD : made t = false) by (unfold made; now rewrite PH).
  assert (CL : p_closed (t_poll t) = false) by (unfold phase_of in PH; unfold t_poll; destruct (t_sock t) as [ | [] | | ]; try discriminate PH; reflexivity).
  assert (NK : ~ In k (kids l)) by (intros I; pose proof (lk_next _ _ OK _ I); unfold k in *; lia).
  assert (KN : kid l k = None) by (apply get_none; exact NK).
  assert (KD : forall j, kid l1 j = if j =? k then Some (t, a) else kid l j).
  { intros j. unfold kid, l1. cbn [l_children]. clear - NK. unfold kids in NK. induction (l_children l) as [|(i, v) ch IH]; cbn [app].
    - rewrite get_cons. destruct (eqb_ok j k) as [-> |N]; [now rewrite Z.eqb_refl|]. apply Z.eqb_neq in N. now rewrite N.
    - rewrite !get_cons. cbn [map fst] in NK. rewrite IH by (intros X; apply NK; now right). destruct (eqb_ok j i) as [-> |N]; [|reflexivity]. destruct (Z.eqb_spec i k); [exfalso; apply NK; now left|reflexivity]. }
  assert (KS : forall j, In j (kids l1) <-> In j (kids l) \/ j = k).
  { intros j. unfold kids, l1. cbn [l_children]. rewrite map_app, in_app_iff. cbn. intuition. }
  assert (OK1 : lok_but (Some k) l1).
  { destruct OK as [O1 O2 O3 O4 O5 O6 O7 O8 O9 O10 O11]. constructor; auto.
    - unfold kids, l1. cbn [l_children]. rewrite map_app. apply (Permutation_NoDup (Permutation_app_comm [k] (map fst (l_children l)))). cbn. now constructor.
    - intros j J. apply KS in J. unfold l1. cbn [l_next]. destruct J as [J| ->]; [pose proof (O2 _ J)|]; unfold k in *; lia.
    - intros j u b J. rewrite KD in J. unfold l1. cbn [l_map]. rewrite get_put. destruct (Z.eqb_spec j k) as [-> |N].
      + injection J as <- <-. destruct (eqb_ok a a); [reflexivity|congruence].
      + pose proof (O3 _ _ _ J) as M. destruct (eqb_ok b a) as [-> |N']; [congruence|exact M].
    - intros b j J. unfold l1 in J. cbn [l_map] in J. rewrite get_put in J. rewrite KD. destruct (eqb_ok b a) as [-> |N'].
      + injection J as <-. rewrite Z.eqb_refl. eauto.
      + destruct (O4 _ _ J) as (u & U). destruct (Z.eqb_spec j k) as [-> |N]; [congruence|eauto].
    - intros j J. unfold made_at. rewrite KD. destruct (Z.eqb_spec j k) as [-> |N]; [congruence|]. exact (O6 j ltac:(discriminate)).
    - intros j J. unfold wants_at. rewrite KD. destruct (Z.eqb_spec j k) as [-> |N]; [congruence|]. exact (O8 j ltac:(discriminate)).
    - intros j u b J. rewrite KD. destruct (Z.eqb_spec j k) as [-> |N]; [congruence|]. exact (O9 j u b ltac:(discriminate)).
    - intros j J. rewrite KD in J. destruct (Z.eqb_spec j k) as [JK|N]; [discriminate J|]. exact (O10 j J). }
  assert (K1 : kid l1 k = Some (t, a)) by (rewrite KD, Z.eqb_refl; reflexivity).
  destruct (sync_ok l1 k t a l' OK1 K1 S) as [S1 S2 S3 S4 S5 S6 S7 S8 S9 S10].
  split; [split; [exact KN|]; intros j; rewrite S2, K1, CL, KD; destruct (j =? k); reflexivity|]. split; [exact S1|]. split; [exact CL|]. split; [exact MD|].
  split; [rewrite S3; unfold acc_after; rewrite MD; apply remove_first_none; exact (proj1 (lk_gone _ _ OK k KN))|]. split; [exact S5|]. split; [exact S6|]. split; [exact S7|]. split; [exact S8|]. split; [|exact PH].
  rewrite S10, CL. unfold l1. cbn [l_children b2z]. unfold zlen. rewrite app_length. cbn [length]. lia.
Qed.
