(** Proofs about the listening socket: histories. *)
From Coq Require Import Permutation.
From Verif Require Import Base FMap SeqModel SeqSpec TcpBufModel TcpBufSpec TcpConnModel TcpConnSpec TcpConnProofs TcpSoloSpec TcpSoloProofs TcpStateModel TcpStateSpec TcpStateProofs TcpStateFacts TcpListenSpec TcpListenProofs.

(** * A child and its socket *)
Definition sound (sc : bool) (s : sess) : Prop := sc = false \/ syn_sent s \/ forall h p, In (h, p) (pkts s) -> h_ack h = false /\ 0 < h_win h.
Lemma vact_out s e s' h p : vact s e = Some s' -> In (h, p) (s_out s) -> In (h, p) (s_out s').
Proof.
  intros E I. destruct e; cbn [vact] in E;
    try (match type of E with obind ?u _ = _ => destruct u as [r|]; [ob_in E|discriminate E] end); injection E as <-; cbn [s_out put_tcp put_shut]; try exact I.
  apply in_app_iff. now left.
Qed.
Lemma vact_sent s e s' : vact s e = Some s' -> syn_sent s -> syn_sent s'.
Proof. intros E (h & p & I & H). exists h, p. split; [eapply vact_out; eauto|exact H]. Qed.
Lemma own_step pu sc g g' k t a s e s' : own pu sc g k t a s -> kin (phase_of t) = true ->
  e = VPop \/ (exists i, e = VFire i) \/ (exists h p, e = VPush h p /\ (h_src h, h_dst h) = a /\ In (h, p) (g_in g')) ->
  allows pu s e -> vact s e = Some s' -> g_now g' = g_now g -> (forall x, In x (g_in g) -> In x (g_in g')) -> (In k (g_spoke g') -> In k (g_spoke g) \/ syn_sent s') ->
  own pu sc g' k (s_tcp s') a s' /\ (kin (phase_of (s_tcp s')) = true \/ phase_of (s_tcp s') = PClosed) /\ (made (s_tcp s') = true -> made t = false -> half_open t = true) /\ (half_open (s_tcp s') = true -> half_open t = true) /\
  (sound sc s -> (forall h p, e = VPush h p -> sc = false \/ syn_sent s) -> sound sc s').
Proof.
  intros [O1 O2 O3 O4 O5 O6 O7] KN EV AL E GN GI GS. pose proof (edges_main _ _ _ _ _ O1 AL E) as ED. rewrite O2 in ED.
  assert (PI : forall h p, In (h, p) (pkts s') -> In (h, p) (pkts s) \/ e = VPush h p).
  { intros h p. destruct EV as [-> |[(i & ->)|(h1 & p1 & -> & _)]]; cbn [vact] in E; (match type of E with obind ?u _ = _ => destruct u as [r|]; [ob_in E|discriminate E] end); injection E as <-; unfold pkts; cbn [s_in put_tcp]; auto.
    rewrite map_app, in_app_iff. intros [I|I]; [auto|]. unfold arrived in I. destruct (phase_of (s_tcp s)); try contradiction I. destruct (concerns s h1); [|contradiction I]. cbn in I. destruct I as [I|[]]. injection I as -> ->. auto. }
  split; [|split; [|split; [|split]]].
  - constructor; auto.
    + eapply LStep; eauto.
    + destruct EV as [-> |[(i & ->)|(h1 & p1 & -> & _)]]; cbn [vact] in E; (match type of E with obind ?u _ = _ => destruct u as [r|]; [ob_in E|discriminate E] end); injection E as <-; cbn [s_now put_tcp]; congruence.
    + destruct EV as [-> |[(i & ->)|(h1 & p1 & -> & _)]]; cbn [vact] in E; (match type of E with obind ?u _ = _ => destruct u as [r|]; [ob_in E|discriminate E] end); injection E as <-; exact O4.
    + intros I. destruct (GS I) as [I'|I']; [|exact I']. eapply vact_sent; eauto.
    + destruct EV as [-> |[(i & ->)|(h1 & p1 & -> & _)]]; cbn [vact] in E; (match type of E with obind ?u _ = _ => destruct u as [r|]; [ob_in E|discriminate E] end); injection E as <-; exact O6.
    + intros h p I. destruct (PI _ _ I) as [I'|I']; [destruct (O7 _ _ I'); auto|]. destruct EV as [X|[(i & X)|(h1 & p1 & X & A & B)]]; try congruence. rewrite X in I'. injection I' as -> ->. auto.
  - destruct ED as [ED|ED]; [rewrite ED; auto|]. unfold kin in *. destruct EV as [-> |[(i & ->)|(h1 & p1 & -> & _)]]; inversion ED; subst; auto; try discriminate;
      repeat match goal with H : _ = phase_of _ |- _ => rewrite <- H in * end; try discriminate KN; auto.
  - unfold made, half_open in *. destruct ED as [ED|ED]; [rewrite ED; congruence|]. unfold kin in *. destruct EV as [-> |[(i & ->)|(h1 & p1 & -> & _)]]; inversion ED; subst;
      repeat match goal with H : _ = phase_of _ |- _ => rewrite <- H in * end; try discriminate; auto.
  - unfold half_open in *. destruct ED as [ED|ED]; [rewrite ED; auto|]. unfold kin in *. destruct EV as [-> |[(i & ->)|(h1 & p1 & -> & _)]]; inversion ED; subst;
      repeat match goal with H : _ = phase_of _ |- _ => rewrite <- H in * end; try discriminate; auto.
  - intros SD SP. destruct SD as [SD|[SD|SD]]; [now left|right; left; eapply vact_sent; eauto|]. destruct EV as [X|[(i & X)|(h1 & p1 & X & A & B)]].
    + right. right. intros h p I. destruct (PI _ _ I) as [I'|I']; [exact (SD _ _ I')|congruence].
    + right. right. intros h p I. destruct (PI _ _ I) as [I'|I']; [exact (SD _ _ I')|congruence].
    + destruct (SP _ _ X) as [Y|Y]; [now left|]. right. left. eapply vact_sent; eauto.
Qed.

(** * Lists *)
Lemma filter_none {A} (f : A -> bool) l : (forall x, In x l -> f x = false) -> filter f l = [].
Proof. induction l as [|x l IH]; intros H; cbn; [reflexivity|]. rewrite (H x (or_introl eq_refl)). apply IH. intros y I. apply H. now right. Qed.
Lemma filter_one f (l : list Z) k : NoDup l -> In k l -> (forall x, In x l -> f x = (x =? k)) -> filter f l = [k].
Proof.
  induction l as [|x l IH]; intros ND I H; [contradiction I|]. inversion ND as [|? ? NI ND']; subst. cbn. rewrite (H x (or_introl eq_refl)). destruct (Z.eqb_spec x k) as [-> |N].
  - f_equal. apply filter_none. intros y J. rewrite H by now right. apply Z.eqb_neq. intros ->. contradiction.
  - destruct I as [I|I]; [congruence|]. apply IH; auto. intros y J. apply H. now right.
Qed.
Lemma filter_all {A} (f : A -> bool) l : (forall x, In x l -> f x = true) -> filter f l = l.
Proof. induction l as [|x l IH]; intros H; cbn; [reflexivity|]. rewrite (H x (or_introl eq_refl)). f_equal. apply IH. intros y I. apply H. now right. Qed.
Lemma filter_filter {A} (f g : A -> bool) l : filter f (filter g l) = filter (fun x => g x && f x) l.
Proof. induction l as [|x l IH]; cbn; [reflexivity|]. destruct (g x); cbn; rewrite ?IH; reflexivity. Qed.
Lemma newly_none l l' : (forall k, made_at l' k = true -> made_at l k = true) -> newly l l' = [].
Proof. intros H. apply filter_none. intros k _. destruct (made_at l' k) eqn:M; [|reflexivity]. rewrite (H k M). reflexivity. Qed.
Lemma listed_no k l : ~ In k l -> listed k l = false.
Proof. intros N. destruct (listed k l) eqn:L; [|reflexivity]. apply listed_in in L. contradiction. Qed.
Lemma kid_none l k : kid l k = None -> ~ In k (kids l).
Proof. intros K I. destruct (key_kid _ _ I) as (v & V). congruence. Qed.

(** * The invariant of a history *)
Record ginv (pu sc cf : bool) (g : hall) : Prop := {
  gi_ok : lok (g_l g);
  gi_sc : l_scaled (g_l g) = sc;
  gi_kid : forall k t a, kid (g_l g) k = Some (t, a) -> exists s, own pu sc g k t a s /\ kin (phase_of t) = true /\ (cf = true -> sound sc s);
  gi_eq : g_given g ++ l_accept (g_l g) = filter (fun k => listed k (g_given g) || made_at (g_l g) k) (g_made g);
  gi_nd : NoDup (g_made g);
  gi_lt : forall k, In k (g_made g) \/ In k (g_spoke g) \/ In k (g_given g) -> k < l_next (g_l g);
  gi_half : forall k t a, kid (g_l g) k = Some (t, a) -> half_open t = true -> ~ In k (g_made g);
  gi_given : forall k, In k (g_given g) -> kid (g_l g) k = None }.
Lemma lok_new sc e n : lok (l_new sc e n).
Proof.
  constructor; cbn; try constructor; try discriminate; try tauto; try (intros; contradiction).
  all: intros; unfold made_at, wants_at, kid in *; cbn in *; try discriminate; try (destruct H0 as (? & ? & X & _); discriminate X).
Qed.
Lemma ginv_start pu sc cf e n now : ginv pu sc cf (opened sc e n now).
Proof.
  constructor; unfold opened; cbn [g_l g_now g_made g_given g_spoke g_in].
  - apply lok_new.
  - reflexivity.
  - intros k t a K. discriminate K.
  - reflexivity.
  - constructor.
  - cbn. tauto.
  - intros k t a K. discriminate K.
  - intros k [].
Qed.
(** Nothing happens to the children. *)
Record calm (l l' : listener) : Prop := { cm_ch : l_children l' = l_children l; cm_map : l_map l' = l_map l; cm_acc : l_accept l' = l_accept l; cm_send : l_send l' = l_send l;
  cm_next : l_next l' = l_next l; cm_sc : l_scaled l' = l_scaled l; cm_buf : l_buf l' = l_buf l }.
Lemma calm_ok l l' : calm l l' -> lok l -> lok l'.
Proof.
  intros [C1 C2 C3 C4 C5 C6 C7] [A B C D E F G H I J L]. constructor; unfold kids, made_at, wants_at, kid in *; rewrite ?C1, ?C2, ?C3, ?C4, ?C5, ?C7; auto.
Qed.
Lemma own_more pu sc g g' k t a s : own pu sc g k t a s -> g_now g' = g_now g -> (In k (g_spoke g') -> In k (g_spoke g)) -> (forall x, In x (g_in g) -> In x (g_in g')) -> own pu sc g' k t a s.
Proof.
  intros [O1 O2 O3 O4 O5 O6 O7] A B C. constructor; auto; [congruence|]. intros h p I. destruct (O7 h p I). auto.
Qed.
Lemma gi_calm pu sc cf g g' : ginv pu sc cf g -> calm (g_l g) (g_l g') -> g_now g' = g_now g -> g_made g' = g_made g ++ newly (g_l g) (g_l g') -> g_given g' = g_given g -> g_spoke g' = g_spoke g ->
  (forall x, In x (g_in g) -> In x (g_in g')) -> ginv pu sc cf g'.
Proof.
  intros GI CM EN EM EG ES EI. assert (KD : forall k, kid (g_l g') k = kid (g_l g) k) by (intros k; unfold kid; now rewrite (cm_ch _ _ CM)).
  assert (MA : forall k, made_at (g_l g') k = made_at (g_l g) k) by (intros k; unfold made_at; now rewrite KD).
  rewrite newly_none, app_nil_r in EM by (intros k; rewrite MA; auto). destruct GI as [G1 G2 G3 G4 G5 G6 G7 G8]. constructor.
  - exact (calm_ok _ _ CM G1).
  - now rewrite (cm_sc _ _ CM).
  - intros k t a K. rewrite KD in K. destruct (G3 _ _ _ K) as (s & O & R). exists s. split; [|exact R]. eapply own_more; eauto. now rewrite ES.
  - rewrite EG, EM, (cm_acc _ _ CM), G4. apply filter_ext. intros k. now rewrite MA.
  - now rewrite EM.
  - rewrite EM, EG, ES, (cm_next _ _ CM). exact G6.
  - intros k t a K. rewrite KD in K. rewrite EM. eauto.
  - intros k. rewrite EG, KD. auto.
Qed.
(** One child goes on. *)
Lemma gi_one pu sc cf g g' k t a s e s' : ginv pu sc cf g -> kid (g_l g) k = Some (t, a) -> own pu sc g k t a s -> (cf = true -> sound sc s) ->
  e = VPop \/ (exists i, e = VFire i) \/ (exists h p, e = VPush h p /\ (h_src h, h_dst h) = a /\ In (h, p) (g_in g')) ->
  allows pu s e -> vact s e = Some s' -> (cf = true -> forall h p, e = VPush h p -> sc = false \/ syn_sent s) ->
  g_now g' = g_now g -> (forall x, In x (g_in g) -> In x (g_in g')) -> (forall j, In j (g_spoke g') -> In j (g_spoke g) \/ j = k /\ syn_sent s') ->
  g_made g' = g_made g ++ newly (g_l g) (g_l g') -> g_given g' = g_given g ->
  lok (g_l g') -> becomes (g_l g) k (s_tcp s') (g_l g') -> l_accept (g_l g') = acc_after (s_tcp s') k (l_accept (g_l g)) -> l_next (g_l g') = l_next (g_l g) -> l_scaled (g_l g') = l_scaled (g_l g) ->
  ginv pu sc cf g'.
Proof.
  intros GI K OW SD EV AL VA SP EN EI ES EM EG OK' BE AC NX SC. destruct (gi_kid _ _ _ _ GI _ _ _ K) as (_ & _ & KN & _).
  assert (ESk : In k (g_spoke g') -> In k (g_spoke g) \/ syn_sent s') by (intros I; destruct (ES _ I) as [I'|(_ & I')]; auto).
  destruct (own_step _ _ _ _ _ _ _ _ _ _ OW KN EV AL VA EN EI ESk) as (OW' & KN' & MH & HH & SD'). set (t' := s_tcp s') in *.
  assert (CL : p_closed (t_poll t') = true <-> phase_of t' = PClosed) by (unfold phase_of, t_poll; destruct (t_sock t') as [ | [] | | ]; cbn; split; congruence).
  assert (KD : forall j, kid (g_l g') j = if j =? k then if p_closed (t_poll t') then None else Some (t', a) else kid (g_l g) j) by (intros j; rewrite (BE j), K; reflexivity).
  destruct GI as [G1 G2 G3 G4 G5 G6 G7 G8].
  assert (MA : forall j, made_at (g_l g') j = if j =? k then made t' else made_at (g_l g) j).
  { intros j. unfold made_at. rewrite KD. destruct (j =? k); [|reflexivity]. destruct (p_closed (t_poll t')) eqn:C; [|reflexivity]. symmetry. now apply closed_made. }
  assert (MK : made_at (g_l g) k = made t) by (unfold made_at; now rewrite K).
  assert (NG : ~ In k (g_given g)) by (intros I; specialize (G8 _ I); congruence).
  assert (KL : k < l_next (g_l g)) by (apply (lk_next _ _ G1); eapply kid_key; eauto).
  assert (FQ : g_given g' ++ l_accept (g_l g') = filter (fun j => listed j (g_given g') || made_at (g_l g') j) (g_made g') /\ NoDup (g_made g') /\ (forall j, In j (g_made g') -> In j (g_made g) \/ j = k /\ made t' = true)).
  { rewrite EG. destruct (made t) eqn:M, (made t') eqn:M'.
    - rewrite EM, newly_none, app_nil_r. 2: { intros j. rewrite MA. destruct (Z.eqb_spec j k) as [-> |N]; congruence. }
      split; [|split; [exact G5|auto]]. rewrite AC. unfold acc_after. rewrite M'. assert (IK : In k (l_accept (g_l g))) by (apply (lk_acc _ _ G1); [discriminate|exact MK]). apply contains_in in IK. rewrite IK, G4.
      apply filter_ext. intros j. rewrite MA. destruct (Z.eqb_spec j k) as [-> |N]; [now rewrite MK|reflexivity].
    - rewrite EM, newly_none, app_nil_r. 2: { intros j. rewrite MA. destruct (Z.eqb_spec j k) as [-> |N]; congruence. }
      split; [|split; [exact G5|auto]]. rewrite AC. unfold acc_after. rewrite M', remove_first_filter by exact (lk_acc_nd _ _ G1).
      rewrite <- (filter_all (fun x => negb (x =? k)) (g_given g)) at 1 by (intros j I; destruct (Z.eqb_spec j k) as [-> |N]; [contradiction|reflexivity]). rewrite <- filter_app, G4, filter_filter.
      apply filter_ext. intros j. rewrite MA. destruct (Z.eqb_spec j k) as [-> |N]; cbn [negb]; [|apply andb_true_r]. rewrite listed_no by exact NG. now rewrite andb_false_r.
    - assert (NM : ~ In k (g_made g)) by (eapply G7; eauto).
      assert (NW : newly (g_l g) (g_l g') = [k]).
      { unfold newly. apply filter_one; [exact (lk_nd _ _ OK')| |].
        - apply kid_key with (v := (t', a)). rewrite KD, Z.eqb_refl. destruct (p_closed (t_poll t')) eqn:C; [|reflexivity]. apply closed_made in C. congruence.
        - intros j _. rewrite MA. destruct (Z.eqb_spec j k) as [-> |N]; [now rewrite MK|]. apply andb_negb_r. }
      rewrite EM, NW. split; [|split].
      + rewrite AC. unfold acc_after. rewrite M'. assert (IK : contains_key k (l_accept (g_l g)) = false) by (apply not_true_iff_false; rewrite contains_in, (lk_acc _ _ G1) by discriminate; congruence). rewrite IK, app_assoc, G4, filter_app. f_equal.
        * apply filter_ext_in. intros j I. rewrite MA. destruct (Z.eqb_spec j k) as [-> |N]; [contradiction|reflexivity].
        * cbn [filter]. rewrite MA, Z.eqb_refl, orb_true_r. reflexivity.
      + apply (Permutation_NoDup (Permutation_app_comm [k] (g_made g))). cbn. now constructor.
      + intros j I. apply in_app_iff in I. destruct I as [I|[<- |[]]]; auto.
    - rewrite EM, newly_none, app_nil_r. 2: { intros j. rewrite MA. destruct (Z.eqb_spec j k) as [-> |N]; congruence. }
      split; [|split; [exact G5|auto]]. rewrite AC. unfold acc_after. rewrite M', remove_first_none by (rewrite (lk_acc _ _ G1) by discriminate; congruence). rewrite G4.
      apply filter_ext. intros j. rewrite MA. destruct (Z.eqb_spec j k) as [-> |N]; [now rewrite MK|reflexivity]. }
  destruct FQ as (F1 & F2 & F3). constructor; auto.
  - congruence.
  - intros j u b J. rewrite KD in J. destruct (Z.eqb_spec j k) as [JK|N].
    + subst j. destruct (p_closed (t_poll t')) eqn:C; [discriminate J|]. injection J as <- <-. exists s'. split; [exact OW'|]. split; [destruct KN' as [KN'|KN']; [exact KN'|apply CL in KN'; discriminate KN']|]. intros CF. apply SD'; [exact (SD CF)|exact (SP CF)].
    + destruct (G3 _ _ _ J) as (s1 & O1 & R1). exists s1. split; [|exact R1]. eapply own_more; eauto. intros I. destruct (ES _ I) as [I'|(I' & _)]; [exact I'|contradiction].
  - intros j. rewrite NX, EG. intros [I|[I|I]]; [|destruct (ES _ I) as [I'|(-> & _)]; auto|auto]. destruct (F3 _ I) as [I'|(-> & _)]; auto.
  - intros j u b J HO I. rewrite KD in J. destruct (F3 _ I) as [I'|(-> & I')].
    + destruct (Z.eqb_spec j k) as [JK|N]; [|eapply G7; eauto]. subst j. destruct (p_closed (t_poll t')); [discriminate J|]. injection J as <- <-. eapply G7; eauto.
    + rewrite Z.eqb_refl in J. destruct (p_closed (t_poll t')); [discriminate J|]. injection J as <- <-. unfold half_open in HO. unfold made in I'. destruct (phase_of t') as [|[]| |]; discriminate.
  - intros j. rewrite EG, KD. intros I. destruct (Z.eqb_spec j k) as [-> |N]; [contradiction|]. auto.
Qed.
(** A child is new. *)
Lemma gi_new pu sc cf g g' k t a s : ginv pu sc cf g -> k = l_next (g_l g) -> adds (g_l g) k t a (g_l g') -> phase_of t = PConn SynReceived -> own pu sc g' k t a s -> (cf = true -> sound sc s) ->
  g_now g' = g_now g -> (forall x, In x (g_in g) -> In x (g_in g')) -> g_spoke g' = g_spoke g ->
  g_made g' = g_made g ++ newly (g_l g) (g_l g') -> g_given g' = g_given g ->
  lok (g_l g') -> l_accept (g_l g') = l_accept (g_l g) -> l_next (g_l g') = l_next (g_l g) + 1 -> l_scaled (g_l g') = l_scaled (g_l g) ->
  ginv pu sc cf g'.
Proof.
  intros [G1 G2 G3 G4 G5 G6 G7 G8] KE (KN & KD) PH OW SD EN EI ES EM EG OK' AC NX SC.
  assert (MT : made t = false) by (unfold made; now rewrite PH).
  assert (MA : forall j, made_at (g_l g') j = made_at (g_l g) j).
  { intros j. unfold made_at. rewrite KD. destruct (Z.eqb_spec j k) as [-> |N]; [now rewrite KN|reflexivity]. }
  rewrite newly_none, app_nil_r in EM by (intros j; rewrite MA; auto). constructor; auto.
  - congruence.
  - intros j u b J. rewrite KD in J. destruct (Z.eqb_spec j k) as [JK|N].
    + subst j. injection J as <- <-. exists s. rewrite PH. auto.
    + destruct (G3 _ _ _ J) as (s1 & O1 & R1). exists s1. split; [|exact R1]. eapply own_more; eauto. now rewrite ES.
  - rewrite EG, AC, EM, G4. apply filter_ext. intros j. now rewrite MA.
  - now rewrite EM.
  - rewrite EM, ES, EG, NX. intros j J. pose proof (G6 j J). lia.
  - intros j u b J HO. rewrite KD in J. rewrite EM. destruct (Z.eqb_spec j k) as [JK|N]; [|eauto]. subst j. intros I. assert (k < l_next (g_l g)) by auto. lia.
  - intros j I. rewrite EG in I. rewrite KD. destruct (Z.eqb_spec j k) as [JK|N]; [|auto]. assert (j < l_next (g_l g)) by auto. lia.
Qed.
(** A child is handed out. *)
Lemma gi_out pu sc cf g g' k rest : ginv pu sc cf g -> l_accept (g_l g) = k :: rest -> (forall j, kid (g_l g') j = if j =? k then None else kid (g_l g) j) ->
  g_now g' = g_now g -> g_in g' = g_in g -> g_spoke g' = g_spoke g -> g_made g' = g_made g ++ newly (g_l g) (g_l g') -> g_given g' = g_given g ++ [k] ->
  lok (g_l g') -> l_accept (g_l g') = rest -> l_next (g_l g') = l_next (g_l g) -> l_scaled (g_l g') = l_scaled (g_l g) ->
  ginv pu sc cf g'.
Proof.
  intros [G1 G2 G3 G4 G5 G6 G7 G8] AL KD EN EI ES EM EG OK' AC NX SC.
  assert (MA : forall j, made_at (g_l g') j = if j =? k then false else made_at (g_l g) j) by (intros j; unfold made_at; rewrite KD; destruct (j =? k); reflexivity).
  rewrite newly_none, app_nil_r in EM by (intros j; rewrite MA; destruct (j =? k); congruence).
  assert (MK : made_at (g_l g) k = true) by (apply (lk_acc _ _ G1); [discriminate|rewrite AL; now left]).
  assert (KM : In k (g_made g)). { assert (I : In k (g_given g ++ l_accept (g_l g))) by (rewrite AL; apply in_app_iff; right; now left). rewrite G4 in I. apply filter_In in I. tauto. }
  constructor; auto.
  - congruence.
  - intros j u b J. rewrite KD in J. destruct (Z.eqb_spec j k) as [JK|N]; [discriminate J|]. destruct (G3 _ _ _ J) as (s1 & O1 & R1). exists s1. split; [|exact R1]. eapply own_more; eauto; [now rewrite ES|now rewrite EI].
  - rewrite EG, AC, EM, <- app_assoc. cbn [app]. rewrite <- AL, G4. apply filter_ext. intros j. rewrite MA. unfold listed. rewrite existsb_app. cbn [existsb]. rewrite orb_false_r. destruct (Z.eqb_spec j k) as [-> |N].
    + rewrite Z.eqb_refl, MK, !orb_true_r. reflexivity.
    + replace (k =? j) with false by (symmetry; apply Z.eqb_neq; congruence). now rewrite orb_false_r.
  - now rewrite EM.
  - intros j. rewrite EM, ES, EG, NX, in_app_iff. intros [I|[I|[I|[<- |[]]]]]; auto.
  - intros j u b J. rewrite KD in J. rewrite EM. destruct (Z.eqb_spec j k); [discriminate J|]. eauto.
  - intros j. rewrite EG, in_app_iff, KD. intros [I|[<- |[]]]; [|now rewrite Z.eqb_refl]. destruct (j =? k); auto.
Qed.

(** * The calls *)
Lemma wants_pop t t' r : t_pop t = Some (t', r) -> t_wants t = Some (match r with Ok _ => true | Err _ => false end).
Proof.
  unfold t_pop, t_wants. destruct (t_sock t) as [sc'|k c|l was|q was].
  - intros E. injection E as <- <-. reflexivity.
  - unfold wants_to_send. destruct (pop_packet c) as [(c', o)|] eqn:PP; [ob|discriminate]. intros E. injection E as <- <-. unfold pop_packet in PP. destruct (next_segment c) as [[o1|]|]; [ob_in PP|ob_in PP|discriminate PP].
    + ob. destruct o as [hp|]; [reflexivity|]. exfalso. destruct (match c_recv c with Some (q, _) => (true, rend q) | None => (false, 0) end) as (ackflag, acknum).
      repeat (match type of PP with obind ?u _ = _ => destruct u as [?|]; [ob_in PP|discriminate PP] end || match type of PP with (match ?r with pair _ _ => _ end) = _ => destruct r end || match type of PP with assert_then ?b _ = _ => destruct b; [rewrite assert_true in PP by reflexivity|discriminate PP] end). discriminate PP.
    + injection PP as <- <-. reflexivity.
  - destruct l as [|h l]; [discriminate|]. destruct (h_rst h); [rewrite assert_true by reflexivity|discriminate]. destruct l; [|intros E; injection E as <- <-; reflexivity].
    destruct (closed_new t None was) as [t1|]; [ob|discriminate]. intros E. injection E as <- <-. reflexivity.
  - intros E. injection E as <- <-. reflexivity.
Qed.
Lemma pop_wants t b : t_wants t = Some b -> forall t' r, t_pop t = Some (t', r) -> (exists hp, r = Ok hp) <-> b = true.
Proof. intros W t' r P. pose proof (wants_pop _ _ _ P) as E. rewrite W in E. injection E as ->. destruct r; split; [auto|eauto|intros (? & X); discriminate X|discriminate]. Qed.
Definition pushes (now : Z) (l : listener) (h : header) (p : payload) (l' : listener) (r : res Z) : Prop :=
  if h_syn h && (l_full l || q_full l) then l' = l /\ r = Ok 0
  else
    match who l (h_src h, h_dst h) with
    | Some (k, t) => if half_open t && h_ack h && l_full l then l' = l /\ r = Ok 0 else exists t', t_push now t h p = Some (t', r) /\ synced l k t' l'
    | None =>
        if h_syn h then r = Ok 0 /\ exists t, child_new now (l_scaled l) h p = Some t /\ adds l (l_next l) t (h_src h, h_dst h) l' /\ lok l' /\ l_accept l' = l_accept l /\ l_next l' = l_next l + 1 /\
          l_scaled l' = l_scaled l /\ l_max l' = l_max l /\ l_err l' = l_err l /\ phase_of t = PConn SynReceived
        else l' = l /\ r = Ok 0
    end.
Lemma half_received t : is_syn_received (t_sock t) = half_open t.
Proof. unfold half_open, phase_of. destruct (t_sock t) as [ | [] | | ]; reflexivity. Qed.
Lemma push_cases now l h p l' r : lok l -> l_push now l h p = Some (l', r) -> pushes now l h p l' r.
Proof.
  intros OK. unfold l_push, pushes, l_full, q_full. cbv zeta. rewrite (count_rest l OK), (count_made l OK). destruct (n_made l <=? zlen (l_children l)); [rewrite assert_true by reflexivity|discriminate].
  destruct (h_syn h && _) eqn:F; [intros E; injection E as <- <-; auto|]. rewrite (who_map _ _ _ OK). destruct (who l (h_src h, h_dst h)) as [(k, t)|] eqn:W.
  - pose proof (proj1 (who_kid _ _ _ _ _ OK) W) as K. pose proof K as K0. unfold kid in K0. rewrite K0, half_received. destruct (half_open t && h_ack h && (l_max l <=? n_made l)); [intros E; injection E as <- <-; auto|].
    destruct (with_child l k _) as [(l1, o)|] eqn:WC; [ob|discriminate]. apply (with_child_ok None l k _ l1 o OK (or_introl eq_refl)) in WC. rewrite K in WC. destruct WC as (t' & r1 & E1 & -> & SY). ob. intros E. injection E as <- <-. eauto.
  - destruct (h_syn h); cbn [negb]; [|intros E; injection E as <- <-; auto]. destruct (register_child now l h p) as [l1|] eqn:R; [ob|discriminate]. intros E. injection E as <- <-. split; [reflexivity|].
    destruct (register_ok _ _ _ _ _ OK W R) as (t & A1 & A2 & A3 & A4 & A5 & A6 & A7 & A8 & A9 & A10 & A11 & A12). exists t. auto 12.
Qed.
Definition pops (l l' : listener) (r : res (header * payload)) : Prop :=
  match l_send l with
  | [] => l' = l /\ r = Err ENoPacket
  | k :: rest => exists t a t' h p, kid l k = Some (t, a) /\ t_pop t = Some (t', Ok (h, p)) /\ r = Ok (h, p) /\ pay_empty p = true /\ synced (set_lists l (l_accept l) rest) k t' l'
  end.
Lemma lists_ok l k rest : lok l -> l_send l = k :: rest -> lok_but (Some k) (set_lists l (l_accept l) rest).
Proof.
  intros [A B C D E F G H I J L] SL. rewrite SL in G. inversion G as [|? ? NI ND]; subst. constructor; auto; unfold made_at, wants_at, kid in *; cbn [set_lists l_children l_accept l_send].
  - intros j N. apply F. discriminate.
  - intros j N. rewrite <- (H j) by discriminate. rewrite SL. split; [now right|]. intros [X|X]; [congruence|exact X].
  - intros j t a N. apply I. discriminate.
  - intros j J1. destruct (J j J1) as (X & Y). split; [exact X|]. intros Z. apply Y. rewrite SL. now right.
Qed.
Lemma pop_cases l l' r : lok l -> l_pop l = Some (l', r) -> pops l l' r.
Proof.
  intros OK. unfold l_pop, pops. rewrite (lk_buf _ _ OK). destruct (l_send l) as [|k rest] eqn:SL; [intros E; injection E as <- <-; auto|].
  destruct (with_child _ k t_pop) as [(l1, o)|] eqn:WC; [ob|discriminate]. apply (with_child_ok (Some k) _ k _ l1 o (lists_ok l k rest OK SL) (or_intror eq_refl)) in WC. change (kid (set_lists l (l_accept l) rest) k) with (kid l k) in WC.
  assert (IK : In k (l_send l)) by (rewrite SL; now left). apply (lk_send _ _ OK) in IK; [|discriminate]. destruct IK as (t & a & K & W). rewrite K in WC. destruct WC as (t' & r1 & E1 & -> & SY).
  destruct r1 as [(h, p)|e]; [|discriminate]. destruct (pay_empty p) eqn:PE; [rewrite assert_true by reflexivity|discriminate]. intros E. injection E as <- <-. exists t, a, t', h, p. auto 10.
Qed.
Definition accepts (l l' : listener) (r : res tcp) : Prop :=
  match l_accept l with
  | [] => l' = l /\ r = Err ENothingToAccept
  | k :: rest => exists t a, kid l k = Some (t, a) /\ made t = true /\ r = Ok t /\ lok l' /\ (forall j, kid l' j = if j =? k then None else kid l j) /\ l_accept l' = rest /\
      l_next l' = l_next l /\ l_scaled l' = l_scaled l /\ l_max l' = l_max l /\ l_err l' = l_err l
  end.
Lemma accept_cases l : lok l -> exists l' r, l_accept_call l = Some (l', r) /\ accepts l l' r.
Proof.
  intros OK. unfold l_accept_call, accepts. destruct (l_accept l) as [|k rest] eqn:AL; [eauto|]. assert (IK : In k (l_accept l)) by (rewrite AL; now left). apply (lk_acc _ _ OK) in IK; [|discriminate].
  unfold made_at in IK. destruct (kid l k) as [(t, a)|] eqn:K; [|discriminate IK].
  assert (OK1 : lok_but (Some k) (set_lists l rest (l_send l))).
  { destruct OK as [A B C D E F G H I J L]. rewrite AL in E. inversion E as [|? ? NI ND]; subst. constructor; auto; unfold made_at, wants_at, kid in *; cbn [set_lists l_children l_accept l_send].
    - intros j N. rewrite <- (F j) by discriminate. rewrite AL. split; [now right|]. intros [X|X]; [congruence|exact X].
    - intros j N. apply H. discriminate.
    - intros j u b N. apply I. discriminate.
    - intros j J1. destruct (J j J1) as (X & Y). split; [|exact Y]. intros Z. apply X. rewrite AL. now right. }
  destruct (remove_child (set_lists l rest (l_send l)) k) as [(l1, t1)|] eqn:R.
  - ob. destruct (remove_ok _ k t a l1 t1 OK1 K R) as (-> & R1 & R2 & R3 & R4 & R5 & R6 & R7 & R8 & R9). rewrite made_acceptable, IK, assert_true by reflexivity. exists l1, (Ok t). split; [reflexivity|]. exists t, a. split; [reflexivity|]. split; [exact IK|]. split; [reflexivity|]. split; [exact R1|]. split; [exact R2|].
    split; [|auto]. rewrite R3. cbn [set_lists l_accept]. apply remove_first_none. pose proof (lk_acc_nd _ _ OK) as ND. rewrite AL in ND. now inversion ND.
  - exfalso. unfold remove_child in R. unfold kid in K. cbn [set_lists l_children l_map] in R. rewrite K in R. ob_in R. cbn [fst snd set_lists set_children l_map] in R. rewrite (lk_map _ _ OK _ _ _ K), Z.eqb_refl in R. rewrite assert_true in R by reflexivity. discriminate R.
Qed.
Lemma fire_cases l k i l' : lok l -> l_fire l k i = Some l' ->
  match kid l k with None => l' = l | Some (t, _) => exists t', t_fire t i = Some t' /\ synced l k t' l' end.
Proof.
  intros OK. unfold l_fire. destruct (with_child l k _) as [(l1, o)|] eqn:WC; [ob|discriminate]. intros E. injection E as <-. cbn [fst]. apply (with_child_ok None l k _ l1 o OK (or_introl eq_refl)) in WC. destruct (kid l k) as [(t, a)|]; [|tauto].
  destruct WC as (t' & r & E & _ & SY). destruct (t_fire t i) as [t1|]; [|discriminate E]. ob_in E. injection E as <- _. eauto.
Qed.
Lemma calm_refl l : calm l l. Proof. constructor; reflexivity. Qed.

(** * The invariant holds *)
Lemma own_addr pu sc g k t a s t' h p : own pu sc g k t a s -> t_pop t = Some (t', Ok (h, p)) -> kin (phase_of t) = true -> a = (h_dst h, h_src h).
Proof.
  intros [O1 O2 O3 O4 O5 O6 O7] P KN. assert (AL : allows pu s VPop) by exact I. destruct (vact s VPop) as [s'|] eqn:VA.
  - pose proof (silent_main _ _ _ _ _ O1 AL VA) as SM. assert (OUT : s_out s' = s_out s ++ [(h, p)]) by (cbn [vact] in VA; rewrite O2, P in VA; ob_in VA; injection VA as <-; reflexivity). rewrite O2 in SM. rewrite OUT in SM.
    assert (NE : s_out s ++ [(h, p)] <> s_out s) by (intros X; apply (f_equal (@length _)) in X; rewrite app_length in X; cbn in X; lia).
    rewrite O4 in SM. destruct a as (ra, la). cbn [fst snd] in SM. unfold kin in KN. destruct (phase_of t) as [|k0| |]; try discriminate KN.
    + destruct SM as [X|(_ & h1 & p1 & X & _ & A)]; [contradiction|]. apply app_inj_tail in X. destruct X as (_ & X). injection X as <- <-. congruence.
    + destruct SM as [(X & _)|(_ & _ & h1 & X & _ & A)]; [contradiction|]. apply app_inj_tail in X. destruct X as (_ & X). injection X as -> _. congruence.
  - cbn [vact] in VA. rewrite O2, P in VA. discriminate VA.
Qed.
Lemma gi_step pu sc cf g e g' : ginv pu sc cf g -> lallows pu g e -> (cf = true -> lsane sc g e) -> lact g e = Some g' -> ginv pu sc cf g'.
Proof.
  intros GI AL LS E. pose proof (gi_ok _ _ _ _ GI) as OK. destruct e as [h p| | |k i|d|n|]; cbn [lact] in E.
  - destruct (l_push (g_now g) (g_l g) h p) as [(l', r)|] eqn:P; [ob_in E|discriminate E]. injection E as <-. cbn [fst go g_l g_now g_made g_given g_spoke g_in]. apply push_cases in P; [|exact OK]. unfold pushes in P.
    assert (CASE : l' = g_l g -> ginv pu sc cf {| g_l := l'; g_now := g_now g; g_made := g_made g ++ newly (g_l g) l'; g_given := g_given g; g_spoke := g_spoke g; g_in := g_in g ++ [(h, p)] |}).
    { intros ->. apply (gi_calm _ _ _ g); auto using calm_refl. intros x I. apply in_app_iff. now left. }
    destruct (h_syn h && _); [tauto|]. cbn [lsane] in LS. destruct (who (g_l g) (h_src h, h_dst h)) as [(k, t)|] eqn:W.
    + destruct (half_open t && h_ack h && _); [tauto|]. destruct P as (t' & TP & SY). apply (who_kid _ _ _ _ _ OK) in W. destruct (gi_kid _ _ _ _ GI _ _ _ W) as (s & OW & KN & SD).
      destruct (vact s (VPush h p)) as [s'|] eqn:VA.
      2: { exfalso. cbn [vact] in VA. rewrite (ow_tcp _ _ _ _ _ _ _ OW), (ow_now _ _ _ _ _ _ _ OW), TP in VA. discriminate VA. }
      assert (ST : s_tcp s' = t') by (cbn [vact] in VA; rewrite (ow_tcp _ _ _ _ _ _ _ OW), (ow_now _ _ _ _ _ _ _ OW), TP in VA; ob_in VA; injection VA as <-; reflexivity). subst t'.
      apply (gi_one _ _ _ g _ k t (h_src h, h_dst h) s (VPush h p) s'); auto; cbn [g_l g_now g_made g_given g_spoke g_in].
      * right. right. exists h, p. split; [reflexivity|]. split; [reflexivity|]. apply in_app_iff. right. now left.
      * intros CF h1 p1 _. destruct (LS CF) as [X|X]; [now left|right]. exact (ow_spoke _ _ _ _ _ _ _ OW X).
      * intros x I. apply in_app_iff. now left.
      * exact (sy_ok _ _ _ _ SY).
      * exact (sy_kid _ _ _ _ SY).
      * exact (sy_acc _ _ _ _ SY).
      * exact (sy_next _ _ _ _ SY).
      * exact (sy_sc _ _ _ _ SY).
    + destruct (h_syn h) eqn:HS; [|tauto]. destruct P as (_ & t & CN & AD & OK' & AC & NX & SC & MX & ER & PH). rewrite (gi_sc _ _ _ _ GI) in CN.
      apply (gi_new _ _ _ g _ (l_next (g_l g)) t (h_src h, h_dst h) (born (g_now g) h p t (syn_taken sc h p))); auto; cbn [g_l g_now g_made g_given g_spoke g_in].
      * constructor; cbn [born s_tcp s_now s_addr s_wrote s_got s_shut g_now g_spoke g_in fst snd]; auto.
        -- now apply LChild.
        -- intros I. assert (l_next (g_l g) < l_next (g_l g)) by (apply (gi_lt _ _ _ _ GI); auto). lia.
        -- unfold pkts. cbn [s_in map snd]. intros h1 p1 [X|[]]. injection X as <- <-. split; [|reflexivity]. apply in_app_iff. right. now left.
      * intros CF. destruct (LS CF eq_refl) as (_ & [X|X]); [now left|]. right. right. intros h1 p1 [Y|[]]. injection Y as <- <-. exact X.
      * intros x I. apply in_app_iff. now left.
  - destruct (l_pop (g_l g)) as [(l', r)|] eqn:P; [ob_in E|discriminate E]. injection E as <-. cbn [fst snd go g_l g_now g_made g_given g_spoke g_in]. apply pop_cases in P; [|exact OK]. unfold pops in P. destruct (l_send (g_l g)) as [|k rest] eqn:SL.
    + destruct P as (-> & ->). apply (gi_calm _ _ _ g); auto using calm_refl. cbn. apply app_nil_r.
    + destruct P as (t & a & t' & h & p & K & TP & -> & PE & SY). destruct (gi_kid _ _ _ _ GI _ _ _ K) as (s & OW & KN & SD). pose proof (own_addr _ _ _ _ _ _ _ _ _ _ OW TP KN) as AE. rewrite AE in K.
      destruct (vact s VPop) as [s'|] eqn:VA.
      2: { exfalso. cbn [vact] in VA. rewrite (ow_tcp _ _ _ _ _ _ _ OW), TP in VA. discriminate VA. }
      assert (ST : s_tcp s' = t' /\ s_out s' = s_out s ++ [(h, p)]) by (cbn [vact] in VA; rewrite (ow_tcp _ _ _ _ _ _ _ OW), TP in VA; ob_in VA; injection VA as <-; split; reflexivity). destruct ST as (<- & SO).
      rewrite AE in OW. apply (gi_one _ _ _ g _ k t (h_dst h, h_src h) s VPop s'); auto; cbn [g_l g_now g_made g_given g_spoke g_in allows]; auto.
      * intros _ h1 p1 X. discriminate X.
      * intros j I. apply in_app_iff in I. destruct I as [I|I]; [now left|]. right. destruct (h_syn h) eqn:HS; [|contradiction I]. rewrite (proj2 (who_kid _ _ _ _ _ OK) K) in I. destruct I as [<- |[]]. split; [reflexivity|]. exists h, p. rewrite SO. split; [|exact HS]. apply in_app_iff. right. now left.
      * exact (sy_ok _ _ _ _ SY).
      * exact (sy_kid _ _ _ _ SY).
      * exact (sy_acc _ _ _ _ SY).
      * exact (sy_next _ _ _ _ SY).
      * exact (sy_sc _ _ _ _ SY).
  - destruct (accept_cases (g_l g) OK) as (l' & r & P & A). rewrite P in E. ob_in E. injection E as <-. cbn [fst snd go g_l g_now g_made g_given g_spoke g_in]. unfold accepts in A. destruct (l_accept (g_l g)) as [|k rest] eqn:AC.
    + destruct A as (-> & ->). apply (gi_calm _ _ _ g); auto using calm_refl. cbn. apply app_nil_r.
    + destruct A as (t & a & K & M & -> & OK' & KD & A2 & NX & SC & _).
      assert (ONE : filter (fun j => negb (is_kid l' j)) (kids (g_l g)) = [k]).
      { apply filter_one; [exact (lk_nd _ _ OK)|eapply kid_key; eauto|]. intros j I. destruct (key_kid _ _ I) as (v & V). unfold is_kid. rewrite KD. destruct (j =? k); [reflexivity|]. now rewrite V. }
      eapply (gi_out _ _ _ g _ k rest); cbn [g_l g_now g_made g_given g_spoke g_in]; eauto. now rewrite ONE.
  - destruct (l_fire (g_l g) k i) as [l'|] eqn:P; [ob_in E|discriminate E]. injection E as <-. apply fire_cases in P; [|exact OK]. destruct (kid (g_l g) k) as [(t, a)|] eqn:K.
    + destruct P as (t' & TF & SY). destruct (gi_kid _ _ _ _ GI _ _ _ K) as (s & OW & KN & SD).
      destruct (vact s (VFire i)) as [s'|] eqn:VA.
      2: { exfalso. cbn [vact] in VA. rewrite (ow_tcp _ _ _ _ _ _ _ OW), TF in VA. discriminate VA. }
      assert (ST : s_tcp s' = t') by (cbn [vact] in VA; rewrite (ow_tcp _ _ _ _ _ _ _ OW), TF in VA; ob_in VA; injection VA as <-; reflexivity). subst t'.
      apply (gi_one _ _ _ g _ k t a s (VFire i) s'); auto; cbn [go g_l g_now g_made g_given g_spoke g_in allows]; eauto.
      * intros k1 d. rewrite (ow_tcp _ _ _ _ _ _ _ OW), (ow_now _ _ _ _ _ _ _ OW). eapply AL. exact K.
      * intros _ h1 p1 X. discriminate X.
      * exact (sy_ok _ _ _ _ SY).
      * exact (sy_kid _ _ _ _ SY).
      * exact (sy_acc _ _ _ _ SY).
      * exact (sy_next _ _ _ _ SY).
      * exact (sy_sc _ _ _ _ SY).
    + subst l'. apply (gi_calm _ _ _ g); auto using calm_refl.
  - injection E as <-. destruct GI as [G1 G2 G3 G4 G5 G6 G7 G8]. constructor; cbn [g_l g_now g_made g_given g_spoke g_in]; auto. intros k t a K. destruct (G3 _ _ _ K) as (s & OW & KN & SD).
    destruct (vact s (VWait d)) as [s'|] eqn:VA; [|discriminate VA]. destruct AL as (D & AL).
    assert (AW : allows pu s (VWait d)). { split; [exact D|]. intros PU k1 x I. rewrite (ow_tcp _ _ _ _ _ _ _ OW) in I. rewrite (ow_now _ _ _ _ _ _ _ OW). eapply AL; eauto. }
    exists s'. pose proof (LStep _ _ _ _ _ (ow_life _ _ _ _ _ _ _ OW) AW VA) as LF. cbn [vact] in VA. injection VA as <-. split; [|split; [exact KN|exact SD]]. destruct OW as [O1 O2 O3 O4 O5 O6 O7]. constructor; auto. cbn. congruence.
  - injection E as <-. apply (gi_calm _ _ _ g); auto. constructor; reflexivity.
  - injection E as <-. apply (gi_calm _ _ _ g); auto. constructor; reflexivity.
Qed.
Lemma hears_inv pu sc g : hears pu sc g -> ginv pu sc false g.
Proof. induction 1 as [e n now N|g e g' _ IH AL E]; [apply ginv_start|]. eapply gi_step; eauto. discriminate. Qed.
Lemma careful_inv pu sc g : careful pu sc g -> ginv pu sc true g.
Proof. induction 1 as [e n now N|g e g' _ IH AL LS E]; [apply ginv_start|]. eapply gi_step; eauto. Qed.
Lemma careful_hears pu sc g : careful pu sc g -> hears pu sc g.
Proof. induction 1; [now constructor|econstructor; eauto]. Qed.

(** * How many connections wait *)
Definition unacked (t : tcp) : Prop := match t_sock t with Conn SynReceived c => c_syn_acked c = false | _ => True end.
Lemma push_unacked c h p c' n : h_ack h = false -> push_packet c h p = Some (c', n) -> c_syn_acked c' = c_syn_acked c.
Proof.
  intros HA. unfold push_packet. destruct (negb (c_reset c)); [rewrite assert_true by reflexivity|discriminate]. destruct (h_rst h).
  - destruct (recv_window c); [destruct (h_seq h =? _); [|destruct (contains _ _)]|]; intros E; injection E as <- _; reflexivity.
  - destruct (take_syn c h) as [c1|] eqn:TS; [ob|discriminate]. destruct (take_syn_kept _ _ _ TS) as (_ & _ & _ & _ & _ & <-). unfold push_segment. destruct (recv_window c1) as [w|]; [ob|discriminate].
    destruct (trim_segment h p w) as [[(h1, p1)|]|] eqn:TR; [ob|ob|discriminate].
    2: { intros E. injection E as <- _. reflexivity. }
    assert (HA1 : h_ack h1 = false).
    { rewrite <- HA. unfold trim_segment in TR. destruct (pay_len p); [ob_in TR|discriminate TR]. cbv zeta in TR. destruct (intersection _ w) as [i|]; [|discriminate TR]. destruct (range_eqb i _); [injection TR as <- _; reflexivity|].
      destruct (trim_payload _ p w); [ob_in TR|discriminate TR]. match type of TR with obind ?u _ = _ => destruct u; [ob_in TR|discriminate TR] end. injection TR as <- _. reflexivity. }
    destruct (c_recv c1) as [(q, cl)|]; [|intros E; injection E as <- _; reflexivity].
    destruct (c_rst_if_payload c1 && _); [intros E; injection E as <- _; reflexivity|]. destruct (cl && _); [intros E; injection E as <- _; reflexivity|].
    destruct (take_segment q cl h1 p1) as [[((q', cl'), m)|]|]; [ob|intros E; injection E as <- _; reflexivity|discriminate]. cbv zeta.
    match goal with |- obind ?u _ = _ -> _ => destruct u as [c2|] eqn:U; [ob|discriminate] end. unfold take_ack. rewrite HA1. ob. intros E. injection E as <- _.
    destruct (h_syn h); [injection U as <-; destruct (negb _); reflexivity|]. match type of U with obind ?u _ = _ => destruct u; [ob_in U|discriminate U] end. injection U as <-. destruct (negb _); reflexivity.
Qed.
Lemma unacked_reset t c t' : was_reset t c = Some t' -> unacked t' /\ made t' = false.
Proof. intros E. destruct (was_reset_cases _ _ _ E) as (_ & _ & X). unfold unacked, made, phase_of. destruct (c_need_rst c); [destruct X as (h & -> & _)|rewrite X]; auto. Qed.
Lemma unacked_push now t h p t' r : unacked t -> kin (phase_of t) = true -> t_push now t h p = Some (t', r) -> unacked t' /\ (h_ack h = false -> made t' = true -> made t = true).
Proof.
  unfold t_push. unfold unacked at 1. unfold made at 2. unfold phase_of. intros UN KN. destruct (t_sock t) as [sc'|k c|l was|q was] eqn:TS; try discriminate KN.
  2: { intros E. injection E as <- <-. unfold unacked, made, phase_of. rewrite TS. auto. }
  destruct (addrs_match c h); cbn [negb].
  2: { intros E. injection E as <- <-. unfold unacked, made, phase_of. rewrite TS. destruct k; auto. }
  destruct (push_packet c h p) as [(c1, n)|] eqn:P; [ob|discriminate]. destruct (settle now t k h c1) as [t1|] eqn:ST; [ob|discriminate]. intros E. injection E as <- <-.
  unfold settle in ST. destruct (c_reset c1); [destruct (unacked_reset _ _ _ ST) as (A & B); split; [exact A|congruence]|].
  destruct k; try discriminate KN.
  - destruct (c_syn_acked c1) eqn:SA; injection ST as <-; unfold unacked, made, phase_of; cbn [enter set_sock t_sock]; (split; [auto|]); [|discriminate]. intros HA _. pose proof (push_unacked _ _ _ _ _ HA P). congruence.
  - destruct (received_fin c1); injection ST as <-; unfold unacked, made, phase_of; cbn [enter set_sock t_sock]; auto.
  - injection ST as <-. unfold unacked, made, phase_of; cbn [enter set_sock t_sock]; auto.
Qed.
Lemma unacked_pop t t' r : unacked t -> t_pop t = Some (t', r) -> unacked t' /\ (made t' = true -> made t = true).
Proof.
  unfold t_pop. unfold unacked at 1. unfold made at 2. unfold phase_of. destruct (t_sock t) as [sc'|k c|l was|q was] eqn:TS; intros UN.
  - intros E. injection E as <- <-. unfold unacked, made, phase_of. rewrite TS. auto.
  - destruct (pop_packet c) as [(c1, o)|] eqn:P; [ob|discriminate]. intros E. injection E as <- <-. unfold unacked, made, phase_of. cbn [set_sock t_sock]. destruct (pop_kept _ _ _ P) as (_ & _ & _ & -> & _). destruct k; auto.
  - destruct l as [|h l]; [discriminate|]. destruct (h_rst h); [rewrite assert_true by reflexivity|discriminate]. destruct l as [|h1 l].
    + destruct (closed_new t None was) as [t1|] eqn:C; [ob|discriminate]. intros E. injection E as <- <-. destruct (closed_cases _ _ _ _ C) as (C1 & _). unfold unacked, made, phase_of. rewrite C1. auto.
    + intros E. injection E as <- <-. unfold unacked, made, phase_of. cbn. auto.
  - intros E. injection E as <- <-. unfold unacked, made, phase_of. rewrite TS. auto.
Qed.
Lemma unacked_fire t i t' : unacked t -> kin (phase_of t) = true -> t_fire t i = Some t' -> unacked t' /\ (made t' = true -> made t = true).
Proof.
  intros UN KN. unfold t_fire. destruct (nth_error (t_timers t) i) as [(k, d)|]; [|intros E; injection E as <-; auto]. unfold callback. cbn [t_sock].
  assert (SAME : forall t1, t_sock t1 = t_sock t -> unacked t1 /\ (made t1 = true -> made t = true)) by (intros t1 E; revert UN; unfold unacked, made, phase_of; rewrite E; auto).
  unfold phase_of in KN. destruct (t_sock t) as [sc'|k' c|l was|q was] eqn:TS; try discriminate KN; [|intros E; injection E as <-; apply SAME; reflexivity].
  destruct (is_kind k k') eqn:IK; [|intros E; injection E as <-; apply SAME; reflexivity]. apply is_kind_eq in IK. subst k'.
  destruct k; try discriminate KN; try (intros E; injection E as <-; apply SAME; reflexivity).
  unfold t_rst_close, set_err. cbn [t_sock]. destruct (reset_connection _ c) as [t1|] eqn:R; [ob|discriminate]. cbn [fst snd]. rewrite assert_true by reflexivity. intros E. injection E as <-. destruct (reset_cases _ _ _ R) as (h & R1 & _). unfold unacked, made, phase_of. rewrite R1. split; [auto|discriminate].
Qed.
Lemma child_unacked now sc h p t : h_ack h = false -> child_new now sc h p = Some t -> unacked t.
Proof.
  intros HA. unfold child_new. destruct (h_syn h); [rewrite assert_true by reflexivity|discriminate]. destruct (negb (h_rst h)); [rewrite assert_true by reflexivity|discriminate].
  destruct (conn_new _ _ _ _) as [c|] eqn:CN; [ob|discriminate]. destruct (push_packet c h p) as [(c1, n)|] eqn:P; [ob|discriminate]. intros E. injection E as <-. unfold unacked. cbn [enter t_sock fst]. rewrite (push_unacked _ _ _ _ _ HA P).
  unfold conn_new in CN. destruct (sq_new 0); [ob_in CN|discriminate CN]. match type of CN with obind ?u _ = _ => destruct u; [ob_in CN|discriminate CN] end. now injection CN as <-.
Qed.
Lemma modest_hears pu sc n st g : modest pu sc n st g -> hears pu sc g.
Proof. induction 1; [now constructor|econstructor; eauto]. Qed.
Lemma acc_len t' k acc : zlen (acc_after t' k acc) <= zlen acc + b2z (made t' && negb (contains_key k acc)).
Proof.
  unfold acc_after. destruct (made t'); [destruct (contains_key k acc); cbn [negb andb b2z]; [lia|unfold zlen; rewrite app_length; cbn; lia]|]. cbn [andb b2z].
  enough (length (remove_first k acc) <= length acc)%nat by (unfold zlen; lia). induction acc as [|x acc IH]; cbn; [lia|]. destruct (x =? k); cbn; lia.
Qed.
Lemma acc_len_same t t' l k a : lok l -> kid l k = Some (t, a) -> (made t' = true -> made t = true) -> zlen (acc_after t' k (l_accept l)) <= zlen (l_accept l).
Proof.
  intros OK K M. pose proof (acc_len t' k (l_accept l)) as A. destruct (made t') eqn:MT; [|cbn in A; lia]. specialize (M eq_refl). assert (I : In k (l_accept l)) by (apply (lk_acc _ _ OK); [discriminate|unfold made_at; now rewrite K]).
  apply contains_in in I. rewrite I in A. cbn in A. lia.
Qed.
Lemma backlog_pos m : 0 <= m <= U32_MAX -> 1 <= backlog_of m.
Proof. unfold backlog_of, U32_MAX. lia. Qed.
Lemma modest_inv pu sc n st g : modest pu sc n st g ->
  l_max (g_l g) <= n /\ 1 <= n /\ zlen (l_children (g_l g)) <= 2 * n - 1 /\ (st = true -> zlen (l_accept (g_l g)) <= n /\ forall k t a, kid (g_l g) k = Some (t, a) -> unacked t).
Proof.
  induction 1 as [e m now M MN|g e g' MO IH AL LM E].
  - pose proof (backlog_pos m M). cbn [opened g_l l_new l_max l_children l_accept]. change (zlen (@nil (Z * (tcp * (Z * Z))))) with 0. change (zlen (@nil Z)) with 0. split; [exact MN|]. split; [lia|]. split; [lia|]. intros _. split; [lia|]. intros k t a K. discriminate K.
  - destruct IH as (I1 & I2 & I3 & I4). pose proof (hears_inv _ _ _ (modest_hears _ _ _ _ _ MO)) as GI. pose proof (gi_ok _ _ _ _ GI) as OK.
    assert (SAME : l_max (g_l g') <= n -> l_children (g_l g') = l_children (g_l g) -> l_accept (g_l g') = l_accept (g_l g) -> l_max (g_l g') <= n /\ 1 <= n /\ zlen (l_children (g_l g')) <= 2 * n - 1 /\ (st = true -> zlen (l_accept (g_l g')) <= n /\ forall k t a, kid (g_l g') k = Some (t, a) -> unacked t)).
    { intros A B C. unfold kid. rewrite B, C. auto. }
    assert (ONE : forall l0 k t a t' , kid (g_l g) k = Some (t, a) -> synced l0 k t' (g_l g') -> l_children l0 = l_children (g_l g) -> l_accept l0 = l_accept (g_l g) -> l_max l0 = l_max (g_l g) -> (st = true -> unacked t' /\ (zlen (l_accept (g_l g)) < n \/ (made t' = true -> made t = true))) ->
      l_max (g_l g') <= n /\ 1 <= n /\ zlen (l_children (g_l g')) <= 2 * n - 1 /\ (st = true -> zlen (l_accept (g_l g')) <= n /\ forall k t a, kid (g_l g') k = Some (t, a) -> unacked t)).
    { intros l0 k t a t' K SY C0 A0 M0 U. rewrite (sy_max _ _ _ _ SY), M0. split; [exact I1|]. split; [exact I2|]. split; [rewrite (sy_len _ _ _ _ SY), C0; destruct (p_closed (t_poll t')); cbn [b2z]; lia|]. intros ST. destruct (U ST) as (U1 & U2). destruct (I4 ST) as (I5 & I6).
      split; [rewrite (sy_acc _ _ _ _ SY), A0; destruct U2 as [U2|U2]; [pose proof (acc_len t' k (l_accept (g_l g))); destruct (made t' && _); cbn [b2z] in *; lia|pose proof (acc_len_same t t' _ k a OK K U2); lia]|].
      intros j u b J. rewrite (sy_kid _ _ _ _ SY j) in J. unfold kid in J. rewrite C0 in J. fold (kid (g_l g) k) in J. fold (kid (g_l g) j) in J. rewrite K in J. destruct (j =? k); [|eauto]. destruct (p_closed (t_poll t')); [discriminate J|]. now injection J as <- <-. }
    destruct e as [h p| | |k i|d|m|]; cbn [lact] in E.
    + destruct (l_push (g_now g) (g_l g) h p) as [(l', r)|] eqn:P; [ob_in E|discriminate E]. injection E as <-. cbn [fst go g_l g_now g_made g_given g_spoke g_in] in *. apply push_cases in P; [|exact OK]. unfold pushes in P.
      destruct (h_syn h && (l_full (g_l g) || q_full (g_l g))) eqn:F; [destruct P as (-> & _); auto|]. destruct (who (g_l g) (h_src h, h_dst h)) as [(k, t)|] eqn:W.
      * destruct (half_open t && h_ack h && l_full (g_l g)) eqn:F2; [destruct P as (-> & _); auto|]. destruct P as (t' & TP & SY). apply (who_kid _ _ _ _ _ OK) in W. destruct (gi_kid _ _ _ _ GI _ _ _ W) as (s & OW & KN & _).
        eapply (ONE (g_l g) k t _ t'); eauto. intros ST. destruct (I4 ST) as (I5 & I6). pose proof (I6 _ _ _ W) as UN. destruct (unacked_push _ _ _ _ _ _ UN KN TP) as (U1 & U2). split; [exact U1|].
        destruct (h_ack h) eqn:HA; [|right; auto]. destruct (half_open t) eqn:HO.
        -- cbn [andb] in F2. left. unfold l_full in F2. rewrite (count_made _ OK). apply Z.leb_gt in F2. clear - F2 I1. lia.
        -- right. intros M. destruct (made t) eqn:MT; [reflexivity|exfalso]. destruct (vact s (VPush h p)) as [s'|] eqn:VA.
           ++ assert (ST' : s_tcp s' = t') by (cbn [vact] in VA; rewrite (ow_tcp _ _ _ _ _ _ _ OW), (ow_now _ _ _ _ _ _ _ OW), TP in VA; ob_in VA; injection VA as <-; reflexivity).
              pose proof (edges_main pu sc s (VPush h p) s' (ow_life _ _ _ _ _ _ _ OW) AL VA) as ED. rewrite ST', (ow_tcp _ _ _ _ _ _ _ OW) in ED. unfold made, half_open, kin in *. destruct ED as [ED|ED]; [rewrite ED in M; congruence|].
              destruct (phase_of t) as [|[]| |]; try discriminate; inversion ED; subst; repeat match goal with H : _ = phase_of _ |- _ => rewrite <- H in * end; discriminate.
           ++ cbn [vact] in VA. rewrite (ow_tcp _ _ _ _ _ _ _ OW), (ow_now _ _ _ _ _ _ _ OW), TP in VA. discriminate VA.
      * destruct (h_syn h) eqn:HS; [|destruct P as (-> & _); auto]. destruct P as (_ & t & CN & (AD0 & AD) & OK' & AC & NX & SC & MX & ER & PH). rewrite MX, AC. split; [exact I1|]. split; [exact I2|]. cbn [andb] in F. apply orb_false_iff in F. destruct F as (F1 & F2). unfold l_full, q_full in F1, F2. apply Z.leb_gt in F1, F2.
        split.
        -- pose proof (count_rest _ OK') as CR. pose proof (count_rest _ OK) as CR0. rewrite (count_made _ OK) in CR0. enough (zlen (l_children l') = zlen (l_children (g_l g)) + 1) by lia.
           unfold zlen. assert (PM : Permutation (kids l') (l_next (g_l g) :: kids (g_l g))).
           { apply NoDup_Permutation; [exact (lk_nd _ _ OK')|constructor; [now apply kid_none|exact (lk_nd _ _ OK)]|]. intros j. split.
             - intros I. destruct (key_kid _ _ I) as (v & V). rewrite AD in V. destruct (Z.eqb_spec j (l_next (g_l g))) as [-> |N]; [now left|]. right. eapply kid_key; eauto.
             - intros I. assert (exists v, kid l' j = Some v) as (v & V); [|eapply kid_key; eauto]. rewrite AD. destruct (Z.eqb_spec j (l_next (g_l g))) as [-> |N]; [eauto|]. destruct I as [I|I]; [congruence|]. exact (key_kid _ _ I). }
           apply Permutation_length in PM. unfold kids in PM. cbn [length] in PM. rewrite !map_length in PM. lia.
        -- intros ST. destruct (I4 ST) as (I5 & I6). split; [exact I5|]. intros j u b J. rewrite AD in J. destruct (j =? l_next (g_l g)); [|eauto]. injection J as <- <-. eapply child_unacked; [|exact CN]. apply (LM ST); auto.
    + destruct (l_pop (g_l g)) as [(l', r)|] eqn:P; [ob_in E|discriminate E]. injection E as <-. cbn [fst go g_l g_now g_made g_given g_spoke g_in] in *. apply pop_cases in P; [|exact OK]. unfold pops in P. destruct (l_send (g_l g)) as [|k rest] eqn:SL; [destruct P as (-> & _); auto|].
      destruct P as (t & a & t' & h & p & K & TP & _ & _ & SY). eapply (ONE _ k t a t'); eauto. intros ST. destruct (I4 ST) as (I5 & I6). destruct (unacked_pop _ _ _ (I6 _ _ _ K) TP). auto.
    + destruct (accept_cases (g_l g) OK) as (l' & r & P & A). rewrite P in E. ob_in E. injection E as <-. cbn [fst go g_l g_now g_made g_given g_spoke g_in] in *. unfold accepts in A. destruct (l_accept (g_l g)) as [|k rest] eqn:AC; [destruct A as (-> & _); auto|].
      destruct A as (t & a & K & M & _ & OK' & KD & A2 & NX & SC & MX & ER). rewrite MX, A2. split; [exact I1|]. split; [exact I2|]. split.
      * enough (zlen (l_children l') <= zlen (l_children (g_l g))) by lia. assert (ND : NoDup (kids l')) by exact (lk_nd _ _ OK'). assert (IN : incl (kids l') (kids (g_l g))).
        { intros j I. destruct (key_kid _ _ I) as (v & V). rewrite KD in V. destruct (j =? k); [discriminate V|]. eapply kid_key; eauto. }
        pose proof (NoDup_incl_length ND IN) as LE. unfold kids in LE. rewrite !map_length in LE. unfold zlen. lia.
      * intros ST. destruct (I4 ST) as (I5 & I6). split; [unfold zlen in *; cbn [length] in I5; lia|]. intros j u b J. rewrite KD in J. destruct (j =? k); [discriminate J|]. eauto.
    + destruct (l_fire (g_l g) k i) as [l'|] eqn:P; [ob_in E|discriminate E]. injection E as <-. cbn [fst go g_l g_now g_made g_given g_spoke g_in] in *. apply fire_cases in P; [|exact OK]. destruct (kid (g_l g) k) as [(t, a)|] eqn:K; [|subst l'; auto].
      destruct P as (t' & TF & SY). destruct (gi_kid _ _ _ _ GI _ _ _ K) as (s & OW & KN & _). eapply (ONE (g_l g) k t a t'); eauto. intros ST. destruct (I4 ST) as (I5 & I6). destruct (unacked_fire _ _ _ (I6 _ _ _ K) KN TF). auto.
    + injection E as <-. auto.
    + injection E as <-. apply SAME; auto.
    + injection E as <-. apply SAME; auto.
Qed.

(** * No panics *)
Lemma sync_total l k t a : lok_but (Some k) l -> kid l k = Some (t, a) -> t_wants t <> None -> sync_child l k <> None.
Proof.
  intros OK K W. unfold sync_child. unfold kid in K. rewrite K. ob. destruct (t_wants t) as [w|]; [ob|congruence]. cbn [set_lists l_map]. rewrite (lk_map _ _ OK _ _ _ K), Z.eqb_refl, assert_true by reflexivity.
  destruct (p_closed (t_poll t)); [|discriminate]. unfold remove_child. cbn [set_lists l_children]. rewrite K. ob. cbn [fst snd set_children set_lists l_map]. rewrite (lk_map _ _ OK _ _ _ K), Z.eqb_refl, assert_true by reflexivity. discriminate.
Qed.
Lemma put_kid_ok l k t a t' : lok_but (Some k) l -> kid l k = Some (t, a) -> lok_but (Some k) (set_children l (replace_child k (t', a) (l_children l))) /\ kid (set_children l (replace_child k (t', a) (l_children l))) k = Some (t', a).
Proof.
  intros OK K. set (l1 := set_children l _). assert (KI : In k (map fst (l_children l))) by exact (kid_key l k _ K).
  assert (KD : forall j, kid l1 j = if j =? k then Some (t', a) else kid l j) by (intros j; exact (get_replace k (t', a) (l_children l) j KI)).
  assert (KS : kids l1 = kids l) by (unfold kids, l1; cbn [set_children l_children]; apply keys_replace). split; [|now rewrite KD, Z.eqb_refl].
  destruct OK as [O1 O2 O3 O4 O5 O6 O7 O8 O9 O10 O11]. constructor; auto.
  - now rewrite KS.
  - rewrite KS. exact O2.
  - intros j u b J. rewrite KD in J. destruct (Z.eqb_spec j k) as [-> |N]; [|exact (O3 _ _ _ J)]. injection J as <- <-. exact (O3 _ _ _ K).
  - intros b j J. destruct (O4 _ _ J) as (u & U). rewrite KD. destruct (Z.eqb_spec j k) as [-> |N]; [|eauto]. rewrite K in U. injection U as _ <-. eauto.
  - intros j J. unfold made_at. rewrite KD. destruct (Z.eqb_spec j k) as [-> |N]; [congruence|]. exact (O6 j J).
  - intros j J. unfold wants_at. rewrite KD. destruct (Z.eqb_spec j k) as [-> |N]; [congruence|]. exact (O8 j J).
  - intros j u b J. rewrite KD. destruct (Z.eqb_spec j k) as [-> |N]; [congruence|]. exact (O9 j u b J).
  - intros j J. rewrite KD in J. destruct (Z.eqb_spec j k) as [JK|N]; [discriminate J|]. exact (O10 j J).
Qed.
Lemma with_child_total {A} x l k (f : tcp -> option (tcp * A)) : lok_but x l -> x = None \/ x = Some k ->
  (forall t a, kid l k = Some (t, a) -> exists t' r, f t = Some (t', r) /\ t_wants t' <> None) -> with_child l k f <> None.
Proof.
  intros OK X F. apply (lok_weaken x k l X) in OK. unfold with_child. destruct (get k (l_children l)) as [(t, a)|] eqn:K; [|discriminate]. destruct (F t a K) as (t' & r & E & W). rewrite E. ob.
  destruct (put_kid_ok l k t a t' OK K) as (OK1 & K1). pose proof (sync_total _ _ _ _ OK1 K1 W) as S. destruct (sync_child _ k); [ob; discriminate|congruence].
Qed.
Lemma pop_sound pu sc g k t a s : own pu sc g k t a s -> kin (phase_of t) = true \/ phase_of t = PClosed -> sound sc s -> t_pop t <> None.
Proof.
  intros [O1 O2 O3 O4 O5 O6 O7] KN SD. assert (VP : sc = false \/ syn_sent s \/ (exists q, phase_of t = q /\ match q with PRst | PClosed => True | _ => False end) -> t_pop t <> None).
  { intros G. pose proof (safe_main pu sc s VPop O1 I) as SM. cbn [vact] in SM. rewrite O2 in SM. intros X. rewrite X in SM. apply SM; [|reflexivity]. unfold sane. rewrite O2. unfold kin in KN.
    destruct (phase_of t) as [|k0| |]; auto. destruct k0; auto; destruct G as [G|[G|(q & <- & [])]]; auto. }
  destruct SD as [SD|[SD|SD]]; [auto|auto|]. destruct (phase_of t) as [|k0| |] eqn:PH; try (apply VP; right; right; eexists; split; [reflexivity|exact I]); [destruct KN; discriminate|].
  rewrite <- O2 in PH. destruct (conn_life _ _ _ _ O1 PH) as (c & TS & CO). unfold t_pop. rewrite <- O2, TS. assert (PT : sact (solo_of s c) XPop <> None).
  { apply (pop_main 0 sc _ seq0 (co_alone _ _ _ _ CO)). right. split; [exact (co_need _ _ _ _ CO)|]. right. exact SD. }
  cbn [sact solo_of o_conn] in PT. destruct (pop_packet c) as [(c', o)|]; [ob; discriminate|now destruct PT].
Qed.
Lemma wants_sound pu sc g k t a s : own pu sc g k t a s -> kin (phase_of t) = true \/ phase_of t = PClosed -> sound sc s -> t_wants t <> None.
Proof. intros O K SD. pose proof (pop_sound _ _ _ _ _ _ _ O K SD) as P. destruct (t_pop t) as [(t', r)|] eqn:E; [|congruence]. rewrite (wants_pop _ _ _ E). discriminate. Qed.
(** A connection of which the application did not use sends no data. *)
Lemma pop_empty pu sc s t' h p : life pu sc s -> s_wrote s = [] -> s_shut s = false -> t_pop (s_tcp s) = Some (t', Ok (h, p)) -> pay_empty p = true.
Proof.
  intros L WR SH. unfold t_pop. pose proof (life_ok _ _ _ L) as OK. destruct (t_sock (s_tcp s)) as [sc'|k c|l was|q was]; try discriminate.
  - destruct (pop_packet c) as [(c', o)|] eqn:P; [ob|discriminate]. intros E. injection E as <- E. destruct o as [hp|]; [|discriminate E]. injection E as ->. cbn [sock_ok] in OK. destruct (zok_of _ _ _ _ OK) as (i & r & buf & ZK).
    pose proof (x_pop 0 sc (solo_of s c) i r buf seq0 ZK c' (Some (h, p)) P) as (t & m & _ & PP & _). pose proof (pp_syms _ _ _ _ _ _ _ _ _ PP) as SY. cbn [solo_of o_wrote o_shut] in SY. rewrite WR, SH in SY.
    enough (concat p = []) as C. { clear - C. unfold pay_empty. induction p as [|x p IH]; [reflexivity|]. cbn in *. apply app_eq_nil in C. destruct C as (-> & C). cbn. auto. }
    destruct (concat p) as [|b bs] eqn:C; [reflexivity|exfalso]. assert (IN : In (SByte b) (pkt_syms h p)) by (unfold pkt_syms, syms; rewrite C; destruct (h_syn h); cbn; auto).
    rewrite SY in IN. unfold cut in IN. assert (IN2 : In (SByte b) (stream [] false)).
    { rewrite <- (firstn_skipn (Z.to_nat (t + m - 0)) (stream [] false)). apply in_or_app. left. rewrite <- (firstn_skipn (Z.to_nat (t - 0)) (firstn _ _)). apply in_or_app. now right. }
    destruct IN2 as [X|[]]. discriminate X.
  - destruct l as [|h1 l]; [discriminate|]. destruct (h_rst h1); [rewrite assert_true by reflexivity|discriminate]. destruct l as [|h2 l]; [destruct (closed_new _ _ _); [ob|discriminate]|]; intros E; injection E as _ _ <-; reflexivity.
Qed.
Lemma child_total now sc h p : wire h p -> h_syn h = true -> h_rst h = false -> child_new now sc h p <> None.
Proof.
  intros W HS HR. unfold child_new. rewrite HS, HR. cbn [negb]. rewrite !assert_true by reflexivity. destruct (conn_new (h_dst h) (h_src h) 0 sc) as [c|] eqn:CN.
  - ob. pose proof (push_total 0 sc _ h p seq0 (AStart 0 sc _ _ _ CN) W) as PT. cbn [sact o_conn] in PT. destruct (conn_new_facts _ _ _ _ _ CN) as (_ & _ & F3 & _). specialize (PT F3 (or_intror (or_introl HS))). destruct (push_packet c h p); [ob; discriminate|now destruct PT].
  - exfalso. unfold conn_new in CN. destruct sc; vm_compute in CN; discriminate CN.
Qed.
Lemma count_le pu sc cf g : ginv pu sc cf g -> n_made (g_l g) <=? zlen (l_children (g_l g)) = true.
Proof. intros GI. pose proof (gi_ok _ _ _ _ GI) as OK. apply Z.leb_le. pose proof (count_rest _ OK) as CR. rewrite (count_made _ OK) in CR. unfold n_rest, zlen in CR. unfold zlen. lia. Qed.
Lemma known_total pu sc cf g h p k t s : ginv pu sc cf g -> wire h p -> who (g_l g) (h_src h, h_dst h) = Some (k, t) -> own pu sc g k t (h_src h, h_dst h) s -> kin (phase_of t) = true -> sound sc s -> sc = false \/ syn_sent s ->
  l_push (g_now g) (g_l g) h p <> None.
Proof.
  intros GI AL W OW KN SD SS. pose proof (gi_ok _ _ _ _ GI) as OK. unfold l_push. cbv zeta. rewrite (count_rest _ OK), (count_made _ OK), (count_le _ _ _ _ GI), assert_true by reflexivity. destruct (h_syn h && _); [discriminate|]. rewrite (who_map _ _ _ OK), W.
  match goal with |- (if ?b then _ else _) <> _ => destruct b end; [discriminate|]. apply (who_kid _ _ _ _ _ OK) in W.
  assert (VT : vact s (VPush h p) <> None).
  { apply (safe_main pu sc); [exact (ow_life _ _ _ _ _ _ _ OW)|exact AL|]. unfold sane. rewrite (ow_tcp _ _ _ _ _ _ _ OW). unfold kin in KN. destruct (phase_of t) as [|[]| |]; auto; discriminate KN. }
  destruct (vact s (VPush h p)) as [s'|] eqn:VA; [clear VT|congruence]. pose proof VA as VA0. cbn [vact] in VA0. rewrite (ow_tcp _ _ _ _ _ _ _ OW), (ow_now _ _ _ _ _ _ _ OW) in VA0. destruct (t_push (g_now g) t h p) as [(t', r)|] eqn:TP; [ob_in VA0|discriminate VA0].
  assert (ST : s_tcp s' = t') by (injection VA0 as <-; reflexivity). clear VA0.
  set (g1 := {| g_l := g_l g; g_now := g_now g; g_made := g_made g; g_given := g_given g; g_spoke := g_spoke g; g_in := g_in g ++ [(h, p)] |}).
  destruct (own_step pu sc g g1 k t (h_src h, h_dst h) s (VPush h p) s' OW KN) as (OW' & KN' & _ & _ & SD'); auto.
  { right. right. exists h, p. split; [reflexivity|]. split; [reflexivity|]. apply in_app_iff. right. now left. }
  { intros x X. apply in_app_iff. now left. }
  assert (WT : t_wants t' <> None) by (rewrite <- ST in *; eapply wants_sound; [exact OW'|exact KN'|]; apply SD'; auto).
  destruct (with_child (g_l g) k (fun t => t_push (g_now g) t h p)) as [(l', o)|] eqn:WC.
  * ob. apply (with_child_ok None _ k _ l' o OK (or_introl eq_refl)) in WC. rewrite W in WC. destruct WC as (t2 & r2 & _ & -> & _). ob. discriminate.
  * exfalso. revert WC. eapply with_child_total; [exact OK|now left|]. intros t0 a0 K0. rewrite W in K0. injection K0 as <- <-. eauto.
Qed.
Lemma new_total pu sc cf g h p : ginv pu sc cf g -> wire h p -> who (g_l g) (h_src h, h_dst h) = None -> h_syn h = true -> h_rst h = false -> sc = false \/ h_ack h = false /\ 0 < h_win h ->
  l_push (g_now g) (g_l g) h p <> None.
Proof.
  intros GI AL W HS HR G. pose proof (gi_ok _ _ _ _ GI) as OK. unfold l_push. cbv zeta. rewrite (count_rest _ OK), (count_made _ OK), (count_le _ _ _ _ GI), assert_true by reflexivity. destruct (h_syn h && _); [discriminate|]. rewrite (who_map _ _ _ OK), W, HS.
  cbn [negb]. apply opt_bind; [|discriminate]. unfold register_child. rewrite (gi_sc _ _ _ _ GI).
  destruct (child_new (g_now g) sc h p) as [t|] eqn:CN; [|exfalso; revert CN; now apply child_total]. ob. unfold mem. rewrite (who_map _ _ _ OK), W. cbn [negb]. rewrite assert_true by reflexivity.
  destruct (child_ok _ _ _ _ _ AL CN) as (CO & PH & _).
  assert (WT : t_wants t <> None).
  { set (s := born (g_now g) h p t (syn_taken sc h p)). set (g1 := {| g_l := g_l g; g_now := g_now g; g_made := g_made g; g_given := g_given g; g_spoke := []; g_in := [(h, p)] |}).
    apply (wants_sound pu sc g1 0 t (h_src h, h_dst h) s).
    - constructor; cbn; auto. + now apply LChild. + intros []. + intros h1 p1 [X|[]]. injection X as <- <-. auto.
    - rewrite PH. now left.
    - destruct G as [G|G]; [now left|]. right. right. intros h1 p1 [Y|[]]. injection Y as <- <-. exact G. }
  match goal with |- sync_child ?u _ <> _ => set (l1 := u) end.
  assert (NK : ~ In (l_next (g_l g)) (kids (g_l g))) by (intros X; pose proof (lk_next _ _ OK _ X); lia).
  assert (K1 : get (l_next (g_l g)) (l_children l1) = Some (t, (h_src h, h_dst h))).
  { unfold l1. cbn [l_children]. clear - NK. unfold kids in NK. induction (l_children (g_l g)) as [|(i, v) ch IH]; cbn [app]; rewrite get_cons.
    - destruct (eqb_ok (l_next (g_l g)) (l_next (g_l g))); [reflexivity|congruence].
    - cbn [map fst] in NK. destruct (eqb_ok (l_next (g_l g)) i) as [X|X]; [exfalso; apply NK; now left|]. apply IH. intros Y. apply NK. now right. }
  unfold sync_child. rewrite K1. ob. destruct (t_wants t) as [w|]; [ob|congruence]. cbn [set_lists l_map]. unfold l1 at 1. cbn [l_map]. rewrite get_put. destruct (eqb_ok (h_src h, h_dst h) (h_src h, h_dst h)) as [_|X]; [|congruence]. rewrite Z.eqb_refl, assert_true by reflexivity.
  assert (CL : p_closed (t_poll t) = false) by (unfold phase_of in PH; unfold t_poll; destruct (t_sock t) as [ | [] | | ]; try discriminate PH; reflexivity). rewrite CL. discriminate.
Qed.
Lemma lsafe_main pu sc g e : careful pu sc g -> lallows pu g e -> lsane sc g e -> lact g e <> None.
Proof.
  intros CA AL LS. pose proof (careful_inv _ _ _ CA) as GI. pose proof (gi_ok _ _ _ _ GI) as OK. destruct e as [h p| | |k i|d|n|]; cbn [lact]; try discriminate.
  - apply opt_bind; [|discriminate]. cbn [lsane] in LS. destruct (who (g_l g) (h_src h, h_dst h)) as [(k, t)|] eqn:W.
    + pose proof (proj1 (who_kid _ _ _ _ _ OK) W) as K. destruct (gi_kid _ _ _ _ GI _ _ _ K) as (s & OW & KN & SD). eapply known_total; eauto. destruct LS as [X|X]; [now left|right; exact (ow_spoke _ _ _ _ _ _ _ OW X)].
    + destruct (h_syn h) eqn:HS; [destruct (LS eq_refl) as (HR & G); eapply new_total; eauto|].
      unfold l_push. cbv zeta. rewrite (count_rest _ OK), (count_made _ OK), (count_le _ _ _ _ GI), assert_true, HS by reflexivity. cbn [andb]. rewrite (who_map _ _ _ OK), W. discriminate.
  - apply opt_bind; [|discriminate]. unfold l_pop. rewrite (lk_buf _ _ OK). destruct (l_send (g_l g)) as [|k rest] eqn:SL; [discriminate|].
    assert (IK : In k (l_send (g_l g))) by (rewrite SL; now left). apply (lk_send _ _ OK) in IK; [|discriminate]. destruct IK as (t & a & K & W). destruct (gi_kid _ _ _ _ GI _ _ _ K) as (s & OW & KN & SD). specialize (SD eq_refl).
    pose proof (pop_sound _ _ _ _ _ _ _ OW (or_introl KN) SD) as PT. destruct (t_pop t) as [(t', r)|] eqn:TP; [clear PT|congruence].
    destruct (proj2 (pop_wants _ _ W _ _ TP) eq_refl) as ((h, p) & ->). assert (VA : exists s', vact s VPop = Some s' /\ s_tcp s' = t') by (cbn [vact]; rewrite (ow_tcp _ _ _ _ _ _ _ OW), TP; ob; eexists; split; reflexivity). destruct VA as (s' & VA & ST).
    set (g1 := {| g_l := g_l g; g_now := g_now g; g_made := g_made g; g_given := g_given g; g_spoke := g_spoke g; g_in := g_in g |}).
    destruct (own_step pu sc g g1 k t a s VPop s' OW KN) as (OW' & KN' & _ & _ & SD'); auto.
    assert (WT : t_wants t' <> None) by (rewrite <- ST in *; eapply wants_sound; [exact OW'|exact KN'|]; apply SD'; [exact SD|intros h1 p1 X; discriminate X]).
    destruct (with_child (set_lists (g_l g) (l_accept (g_l g)) rest) k t_pop) as [(l', o)|] eqn:WC.
    + ob. apply (with_child_ok (Some k) _ k _ l' o (lists_ok _ k rest OK SL) (or_intror eq_refl)) in WC. change (kid (set_lists (g_l g) (l_accept (g_l g)) rest) k) with (kid (g_l g) k) in WC. rewrite K in WC. destruct WC as (t2 & r2 & E2 & -> & _). rewrite TP in E2. injection E2 as <- <-.
      pose proof (ow_idle _ _ _ _ _ _ _ OW) as (I1 & _ & I3). rewrite <- (ow_tcp _ _ _ _ _ _ _ OW) in TP. rewrite (pop_empty _ _ _ _ _ _ (ow_life _ _ _ _ _ _ _ OW) I1 I3 TP), assert_true by reflexivity. discriminate.
    + exfalso. revert WC. eapply (with_child_total (Some k)); [exact (lists_ok _ k rest OK SL)|now right|]. intros t0 a0 K0. change (kid (g_l g) k = Some (t0, a0)) in K0. rewrite K in K0. injection K0 as <- <-. eauto.
  - destruct (accept_cases (g_l g) OK) as (l' & r & P & _). rewrite P. ob. discriminate.
  - apply opt_bind; [|discriminate]. unfold l_fire. apply opt_bind; [|discriminate]. apply (with_child_total None); [exact OK|now left|]. intros t a K. destruct (gi_kid _ _ _ _ GI _ _ _ K) as (s & OW & KN & SD). specialize (SD eq_refl). cbn [lsane] in LS. unfold is_kid in LS. rewrite K in LS.
    assert (SS : sc = false \/ syn_sent s) by (destruct (LS eq_refl) as [X|X]; [now left|right; exact (ow_spoke _ _ _ _ _ _ _ OW X)]).
    assert (AF : allows pu s (VFire i)) by (intros k1 d; rewrite (ow_tcp _ _ _ _ _ _ _ OW), (ow_now _ _ _ _ _ _ _ OW); eapply AL; exact K).
    assert (VT : vact s (VFire i) <> None).
    { apply (safe_main pu sc); [exact (ow_life _ _ _ _ _ _ _ OW)|exact AF|]. unfold sane. rewrite (ow_tcp _ _ _ _ _ _ _ OW). unfold kin in KN. destruct (phase_of t) as [|[]| |]; auto; discriminate KN. }
    destruct (vact s (VFire i)) as [s'|] eqn:VA; [clear VT|congruence]. pose proof VA as VA0. cbn [vact] in VA0. rewrite (ow_tcp _ _ _ _ _ _ _ OW) in VA0. destruct (t_fire t i) as [t'|]; [ob_in VA0|discriminate VA0]. assert (ST : s_tcp s' = t') by (injection VA0 as <-; reflexivity). clear VA0. ob.
    exists t', tt. split; [reflexivity|]. destruct (own_step pu sc g g k t a s (VFire i) s' OW KN) as (OW' & KN' & _ & _ & SD'); eauto.
    rewrite <- ST in *. eapply wants_sound; [exact OW'|exact KN'|]. apply SD'; [exact SD|intros h1 p1 X; discriminate X].
Qed.

(** * Closing *)
Lemma sync_buf l b k : sync_child (set_buf l b) k = match sync_child l k with Some l' => Some (set_buf l' b) | None => None end.
Proof.
  unfold sync_child. change (l_children (set_buf l b)) with (l_children l). destruct (get k (l_children l)) as [(t, a)|]; [ob|reflexivity]. destruct (t_wants t); [ob|reflexivity]. cbn [set_lists set_buf l_map l_send l_accept].
  destruct (match get a (l_map l) with Some k' => k' =? k | None => false end) eqn:M; [rewrite !assert_true by reflexivity|reflexivity]. destruct (p_closed (t_poll t)); [|reflexivity].
  unfold remove_child. cbn [set_lists set_buf l_children]. destruct (get k (l_children l)) as [e|]; [ob|reflexivity]. cbn [set_children set_lists set_buf l_map]. destruct (match get (snd e) (l_map l) with Some k' => k' =? k | None => false end); [rewrite !assert_true by reflexivity|reflexivity]. ob. reflexivity.
Qed.
Lemma with_buf {A} l b k (f : tcp -> option (tcp * A)) : with_child (set_buf l b) k f = match with_child l k f with Some (l', o) => Some (set_buf l' b, o) | None => None end.
Proof.
  unfold with_child. change (l_children (set_buf l b)) with (l_children l). destruct (get k (l_children l)) as [(t, a)|]; [|reflexivity]. destruct (f t) as [(t', r)|]; [ob|reflexivity].
  change (set_children (set_buf l b) (replace_child k (t', a) (l_children l))) with (set_buf (set_children l (replace_child k (t', a) (l_children l))) b). rewrite sync_buf. destruct (sync_child _ k); [ob|]; reflexivity.
Qed.
Definition addr_ok (t : tcp) (a : Z * Z) : Prop := match t_sock t with Conn k c => a = (c_remote c, c_local c) /\ kin (PConn k) = true | Rst _ _ => True | _ => False end.
Lemma own_addr_ok pu sc g k t a s : own pu sc g k t a s -> kin (phase_of t) = true -> addr_ok t a.
Proof.
  intros [O1 O2 O3 O4 O5 O6 O7] KN. unfold addr_ok. pose proof (life_ok _ _ _ O1) as OK. rewrite O2 in OK. unfold phase_of in KN. destruct (t_sock t) as [sc'|k0 c|l was|q was]; try discriminate KN; [|exact I]. cbn [sock_ok] in OK. pose proof (co_addr _ _ _ _ OK) as A. rewrite O4 in A. destruct a as (x, y). cbn in A. injection A as -> ->. auto.
Qed.
(** The RST of a connection that was reset leaves, and the connection is gone. *)
Lemma drain_ok l b k t a h was n : lok l -> kid l k = Some (t, a) -> t_sock t = Rst [h] was -> h_rst h = true ->
  exists l', drain (S (S n)) (set_buf l b) k = Some (set_buf l' (b ++ [h])) /\ lok l' /\ (forall j, kid l' j = if j =? k then None else kid l j) /\ l_scaled l' = l_scaled l /\ l_err l' = l_err l.
Proof.
  intros OK K TS HR. assert (TP : exists t', t_pop t = Some (t', Ok (h, [])) /\ p_closed (t_poll t') = true /\ t_wants t' = Some false).
  { unfold t_pop. rewrite TS, HR, assert_true by reflexivity. unfold closed_new. destruct was; cbn; eexists; (split; [reflexivity|]); split; reflexivity. }
  destruct TP as (t' & TP & CL & WT). cbn [drain]. rewrite with_buf. destruct (with_child l k t_pop) as [(l1, o)|] eqn:WC.
  2: { exfalso. revert WC. apply (with_child_total None); [exact OK|now left|]. intros t0 a0 K0. rewrite K in K0. injection K0 as <- <-. exists t', (Ok (h, [])). split; [exact TP|congruence]. }
  apply (with_child_ok None l k _ l1 o OK (or_introl eq_refl)) in WC. rewrite K in WC. destruct WC as (t2 & r2 & E2 & -> & SY). rewrite TP in E2. injection E2 as <- <-. ob. cbn [pay_empty forallb]. rewrite assert_true by reflexivity.
  assert (KD : forall j, kid l1 j = if j =? k then None else kid l j) by (intros j; rewrite (sy_kid _ _ _ _ SY j), K, CL; reflexivity).
  exists l1. split; [|split; [exact (sy_ok _ _ _ _ SY)|split; [exact KD|split; [exact (sy_sc _ _ _ _ SY)|exact (sy_err _ _ _ _ SY)]]]].
  change (l_buf (set_buf l1 b)) with b. change (set_buf (set_buf l1 b) (b ++ [h])) with (set_buf l1 (b ++ [h])). unfold with_child. change (l_children (set_buf l1 (b ++ [h]))) with (l_children l1). pose proof (KD k) as G. rewrite Z.eqb_refl in G. unfold kid in G. rewrite G. reflexivity.
Qed.
Lemma rst_close_ok t t1 : t_rst_close t = Some (t1, Ok tt) -> kin (phase_of t) = true -> exists k c h, t_sock t = Conn k c /\ reset_connection t c = Some t1 /\ t_sock t1 = Rst [h] true /\ h_rst h = true /\ h_src h = c_local c /\ h_dst h = c_remote c.
Proof.
  unfold t_rst_close, phase_of. destruct (t_sock t) as [sc'|k c|l was|q was]; try discriminate. intros E KN. destruct k; try discriminate KN;
    (destruct (reset_connection t c) as [t2|] eqn:R; [ob_in E|discriminate E]); injection E as <-; destruct (reset_cases _ _ _ R) as (h & R1 & R2 & R3 & R4 & _); do 2 eexists; exists h; auto 10.
Qed.
Lemma reset_one l b k t a l' : lok l -> kid l k = Some (t, a) -> addr_ok t a ->
  (do r <- with_child (set_buf l b) k t_rst_close; let '(l, o) := r in check (match o with Some (Ok _) => true | _ => false end); drain 3 l k) = Some l' ->
  exists l1 h, l' = set_buf l1 (b ++ [h]) /\ lok l1 /\ (forall j, kid l1 j = if j =? k then None else kid l j) /\ l_scaled l1 = l_scaled l /\ l_err l1 = l_err l /\ h_rst h = true /\ (h_dst h, h_src h) = a /\ exists k c, phase_of t = PConn k /\ reset_connection t c <> None.
Proof.
  intros OK K AO. rewrite with_buf. destruct (with_child l k t_rst_close) as [(l1, o)|] eqn:WC; [ob|discriminate]. apply (with_child_ok None l k _ l1 o OK (or_introl eq_refl)) in WC. rewrite K in WC. destruct WC as (t1 & r1 & E1 & -> & SY).
  destruct r1 as [[]|e]; [rewrite assert_true by reflexivity|discriminate]. assert (KN : kin (phase_of t) = true) by (unfold addr_ok in AO; unfold phase_of; destruct (t_sock t); tauto).
  destruct (rst_close_ok _ _ E1 KN) as (k0 & c & h & TS & RC & T1 & HR & H1 & H2). unfold addr_ok in AO. rewrite TS in AO. destruct AO as (-> & _).
  assert (CL : p_closed (t_poll t1) = false) by (unfold t_poll; now rewrite T1). assert (K1 : kid l1 k = Some (t1, (c_remote c, c_local c))) by (rewrite (sy_kid _ _ _ _ SY k), K, Z.eqb_refl, CL; reflexivity).
  destruct (drain_ok l1 b k t1 _ h true 1 (sy_ok _ _ _ _ SY) K1 T1 HR) as (l2 & D & OK2 & KD & S2 & E2). rewrite D. intros E. injection E as <-. exists l2, h. split; [reflexivity|]. split; [exact OK2|]. split.
  - intros j. rewrite KD. rewrite (sy_kid _ _ _ _ SY j). destruct (j =? k); reflexivity.
  - split; [rewrite S2; exact (sy_sc _ _ _ _ SY)|]. split; [rewrite E2; exact (sy_err _ _ _ _ SY)|]. split; [exact HR|]. split; [congruence|]. exists k0, c. unfold phase_of. rewrite TS. split; [reflexivity|congruence].
Qed.
Lemma reset_total_one l b k t a c k0 : lok l -> kid l k = Some (t, a) -> addr_ok t a -> t_sock t = Conn k0 c -> reset_connection t c <> None ->
  (do r <- with_child (set_buf l b) k t_rst_close; let '(l, o) := r in check (match o with Some (Ok _) => true | _ => false end); drain 3 l k) <> None.
Proof.
  intros OK K AO TS RC. unfold addr_ok in AO. rewrite TS in AO. destruct AO as (-> & KN). assert (E1 : exists t1, t_rst_close t = Some (t1, Ok tt)).
  { unfold t_rst_close. rewrite TS. destruct k0; try discriminate KN; (destruct (reset_connection t c); [ob; eauto|congruence]). }
  destruct E1 as (t1 & E1). assert (KN1 : kin (phase_of t) = true) by (unfold phase_of; now rewrite TS). destruct (rst_close_ok _ _ E1 KN1) as (k1 & c1 & h & _ & _ & T1 & HR & _).
  assert (WT : t_wants t1 <> None) by (unfold t_wants; rewrite T1; cbn; discriminate). rewrite with_buf. destruct (with_child l k t_rst_close) as [(l1, o)|] eqn:WC.
  2: { exfalso. revert WC. apply (with_child_total None); [exact OK|now left|]. intros t0 a0 K0. rewrite K in K0. injection K0 as <- <-. eauto. }
  ob. apply (with_child_ok None l k _ l1 o OK (or_introl eq_refl)) in WC. rewrite K in WC. destruct WC as (t2 & r2 & E2 & -> & SY). rewrite E1 in E2. injection E2 as <- <-. rewrite assert_true by reflexivity.
  assert (CL : p_closed (t_poll t1) = false) by (unfold t_poll; now rewrite T1). assert (K1 : kid l1 k = Some (t1, (c_remote c, c_local c))) by (rewrite (sy_kid _ _ _ _ SY k), K, Z.eqb_refl, CL; reflexivity).
  destruct (drain_ok l1 b k t1 _ h true 1 (sy_ok _ _ _ _ SY) K1 T1 HR) as (l2 & D & _). rewrite D. discriminate.
Qed.
Lemma reset_unfold l k ks : reset_children l (k :: ks) =
  do l <- (do r <- with_child l k t_rst_close; let '(l, o) := r in check (match o with Some (Ok _) => true | _ => false end); drain 3 l k); reset_children l ks.
Proof. cbn [reset_children]. destruct (with_child l k t_rst_close) as [(l1, o)|]; [ob|reflexivity]. destruct (match o with Some (Ok _) => true | _ => false end); reflexivity. Qed.
Lemma reset_all : forall ks l b l', lok l -> NoDup ks -> (forall k, In k ks -> exists t a, kid l k = Some (t, a) /\ addr_ok t a) -> reset_children (set_buf l b) ks = Some l' ->
  exists l1 hs, l' = set_buf l1 (b ++ hs) /\ lok l1 /\ (forall j, kid l1 j = if listed j ks then None else kid l j) /\ l_scaled l1 = l_scaled l /\ l_err l1 = l_err l /\
    Forall2 (fun k h => h_rst h = true /\ exists t, kid l k = Some (t, (h_dst h, h_src h)) /\ is_pconn t) ks hs.
Proof.
  induction ks as [|k ks IH]; intros l b l' OK ND KS.
  - cbn [reset_children]. intros E. injection E as <-. exists l, []. rewrite app_nil_r. split; [reflexivity|]. split; [exact OK|]. split; [reflexivity|]. split; [reflexivity|]. split; [reflexivity|]. constructor.
  - rewrite reset_unfold. inversion ND as [|? ? NI ND']; subst. destruct (KS k (or_introl eq_refl)) as (t & a & K & AO).
    match goal with |- obind ?u _ = _ -> _ => destruct u as [l1|] eqn:U; [ob|discriminate] end. destruct (reset_one l b k t a l1 OK K AO U) as (l2 & h & -> & OK2 & KD & S2 & E2 & HR & HA & (k0 & c & PH & _)).
    intros E. destruct (IH l2 (b ++ [h]) l' OK2 ND') as (l3 & hs & -> & OK3 & KD3 & S3 & E3 & F); auto.
    { intros j J. destruct (KS j (or_intror J)) as (u & x & KJ & AJ). exists u, x. split; [|exact AJ]. rewrite KD. destruct (Z.eqb_spec j k) as [-> |N]; [contradiction|exact KJ]. }
    exists l3, (h :: hs). rewrite <- app_assoc. split; [reflexivity|]. split; [exact OK3|]. split; [|split; [congruence|split; [congruence|]]].
    + intros j. rewrite KD3. cbn [listed existsb]. rewrite KD. unfold listed. destruct (Z.eqb_spec k j) as [-> |N]; cbn [orb].
      * rewrite Z.eqb_refl. destruct (existsb _ ks); reflexivity.
      * destruct (Z.eqb_spec j k); [congruence|reflexivity].
    + constructor.
      * split; [exact HR|]. exists t. rewrite HA. split; [exact K|]. exists k0. exact PH.
      * clear - F KD. induction F as [|j h1 js hs1 (A & u & B & C) F IH]; constructor; auto. split; [exact A|]. exists u. split; [|exact C]. rewrite KD in B. destruct (Z.eqb_spec j k) as [-> |N]; [discriminate B|exact B].
Qed.
Lemma reset_all_total : forall ks l b, lok l -> NoDup ks -> (forall k, In k ks -> exists t a k0 c, kid l k = Some (t, a) /\ addr_ok t a /\ t_sock t = Conn k0 c /\ reset_connection t c <> None) -> reset_children (set_buf l b) ks <> None.
Proof.
  induction ks as [|k ks IH]; intros l b OK ND KS; [discriminate|]. rewrite reset_unfold. inversion ND as [|? ? NI ND']; subst. destruct (KS k (or_introl eq_refl)) as (t & a & k0 & c & K & AO & TS & RC).
  pose proof (reset_total_one l b k t a c k0 OK K AO TS RC) as U. match goal with |- obind ?u _ <> _ => destruct u as [l1|] eqn:E; [ob|contradiction] end. destruct (reset_one l b k t a l1 OK K AO E) as (l2 & h & -> & OK2 & KD & _). apply IH; [exact OK2|exact ND'|].
  intros j J. destruct (KS j (or_intror J)) as (u & x & k1 & c1 & KJ & R). exists u, x, k1, c1. split; [|exact R]. rewrite KD. destruct (Z.eqb_spec j k) as [-> |N]; [contradiction|exact KJ].
Qed.
Lemma set_buf_same l : l_buf l = [] -> set_buf l [] = l. Proof. destruct l. cbn. intros ->. reflexivity. Qed.
Lemma close_main pu sc g t : hears pu sc g -> l_close (g_l g) = Some t ->
  (forall k u a, kid (g_l g) k = Some (u, a) -> is_pconn u) /\ t_err t = l_err (g_l g) /\ t_timers t = [] /\
  match l_children (g_l g) with
  | [] => t_sock t = Closed (rq_new 0) false
  | ch => exists hs, t_sock t = Rst hs false /\ forallb h_rst hs = true /\ map (fun h => (h_dst h, h_src h)) hs = map (fun x => snd (snd x)) ch
  end.
Proof.
  intros H. pose proof (hears_inv _ _ _ H) as GI. pose proof (gi_ok _ _ _ _ GI) as OK. unfold l_close. pose proof (set_buf_same _ (lk_buf _ _ OK)) as SB. rewrite <- SB at 1.
  destruct (reset_children (set_buf (g_l g) []) (map fst (l_children (g_l g)))) as [l'|] eqn:R; [ob|discriminate].
  destruct (fun K => reset_all _ _ _ _ OK (lk_nd _ _ OK) K R) as (l1 & hs & -> & OK1 & KD & S1 & E1 & F).
  { intros k IK. destruct (key_kid (g_l g) k IK) as ((u, a) & K). exists u, a. split; [exact K|]. destruct (gi_kid _ _ _ _ GI _ _ _ K) as (s & OW & KN & _). eapply own_addr_ok; eauto. }
  cbn [app set_buf l_children l_buf l_scaled l_err]. destruct (l_children l1) as [|x r]; [rewrite assert_true by reflexivity|discriminate].
  assert (FR : filter h_rst hs = hs) by (clear - F; induction F as [|k h ks hs (A & _) F IH]; cbn; [reflexivity|]; rewrite A; congruence). rewrite FR.
  assert (AR : forallb h_rst hs = true) by (clear - F; induction F as [|k h ks hs (A & _) F IH]; cbn; [reflexivity|]; now rewrite A).
  intros E. split; [|split; [|split]].
  - intros k u a K. pose proof (kid_key _ _ _ K) as IK. unfold kids in IK, F. clear - F IK K. revert F IK. generalize (map fst (l_children (g_l g))) as ks0. intros ks0 F. induction F as [|j h ks hs (_ & u1 & B & C) F IH]; intros IK; [contradiction IK|]. destruct IK as [-> |IK]; [|auto]. rewrite K in B. injection B as <- _. exact C.
  - destruct hs as [|h hs]; [unfold closed_new in E; cbn in E; injection E as <-; cbn; congruence|]. unfold rst_new in E. rewrite AR in E. cbn in E. injection E as <-. cbn. congruence.
  - destruct hs as [|h hs]; [unfold closed_new in E; cbn in E; injection E as <-; reflexivity|]. unfold rst_new in E. rewrite AR in E. cbn in E. injection E as <-. reflexivity.
  - unfold kids in F. destruct (l_children (g_l g)) as [|c0 ch] eqn:CH.
    + inversion F; subst. unfold closed_new in E. cbn in E. injection E as <-. reflexivity.
    + exists hs. split; [|split; [exact AR|]].
      * destruct hs as [|h hs]; [inversion F|]. unfold rst_new in E. cbn [forallb] in E. cbn in AR. rewrite AR in E. cbn in E. injection E as <-. reflexivity.
      * assert (ALL : forall x, In x (c0 :: ch) -> kid (g_l g) (fst x) = Some (snd x)) by (rewrite <- CH; intros (k, v) IX; apply in_get; [exact (lk_nd _ _ OK)|exact IX]). clear - F ALL. revert hs F ALL. generalize (c0 :: ch) as cs.
        induction cs as [|x cs IH]; intros hs F ALL; inversion F as [|? h ? hs1 (_ & u & B & _) F1]; subst; [reflexivity|]. cbn [map]. f_equal; [|apply IH; [exact F1|intros y Y; apply ALL; now right]].
        rewrite (ALL x (or_introl eq_refl)) in B. injection B as ->. reflexivity.
Qed.
Lemma close_total pu sc g : hears pu sc g -> (forall k t a, kid (g_l g) k = Some (t, a) -> is_pconn t /\ (sc = false \/ In k (g_spoke g))) -> l_close (g_l g) <> None.
Proof.
  intros H G. pose proof (hears_inv _ _ _ H) as GI. pose proof (gi_ok _ _ _ _ GI) as OK. pose proof (set_buf_same _ (lk_buf _ _ OK)) as SB.
  assert (KS : forall k, In k (map fst (l_children (g_l g))) -> exists t a k0 c, kid (g_l g) k = Some (t, a) /\ addr_ok t a /\ t_sock t = Conn k0 c /\ reset_connection t c <> None).
  { intros k IK. destruct (key_kid (g_l g) k IK) as ((t, a) & K). destruct (gi_kid _ _ _ _ GI _ _ _ K) as (s & OW & KN & _). destruct (G _ _ _ K) as ((k0 & PH) & SP). pose proof PH as PH0. rewrite <- (ow_tcp _ _ _ _ _ _ _ OW) in PH0.
    destruct (conn_life _ _ _ _ (ow_life _ _ _ _ _ _ _ OW) PH0) as (c & TS & CO). rewrite (ow_tcp _ _ _ _ _ _ _ OW) in TS. exists t, a, k0, c. split; [exact K|]. split; [eapply own_addr_ok; eauto|]. split; [exact TS|]. eapply reset_total; [exact CO|].
    destruct SP as [SP|SP]; [now left|right]. split; [|exact (ow_spoke _ _ _ _ _ _ _ OW SP)]. eapply heard_conn; [exact CO|]. eapply conn_heard; [exact CO|]. intros ->. rewrite PH in KN. discriminate KN. }
  unfold l_close. pose proof (reset_all_total _ _ [] OK (lk_nd _ _ OK) KS) as T. rewrite <- SB at 1. destruct (reset_children (set_buf (g_l g) []) (map fst (l_children (g_l g)))) as [l'|] eqn:R; [ob|exfalso; apply T; exact R].
  destruct (fun K => reset_all _ _ _ _ OK (lk_nd _ _ OK) K R) as (l1 & hs & -> & OK1 & KD & S1 & E1 & F).
  { intros k IK. destruct (KS k IK) as (u & a & _ & _ & K & AO & _). eauto. }
  cbn [app set_buf l_children l_buf l_scaled l_err]. assert (CE : l_children l1 = []).
  { destruct (l_children l1) as [|(k, v) r] eqn:CH; [reflexivity|exfalso]. assert (K1 : kid l1 k = Some v) by (apply in_get; [exact (lk_nd _ _ OK1)|rewrite CH; now left]). rewrite KD in K1. destruct (listed k _) eqn:LI; [discriminate K1|]. pose proof (kid_key _ _ _ K1) as IK. apply listed_in in IK. change (map fst (l_children (g_l g))) with (kids (g_l g)) in LI. congruence. }
  rewrite CE. rewrite assert_true by reflexivity. assert (FR : filter h_rst hs = hs) by (clear - F; induction F as [|k h ks hs (A & _) F IH]; cbn; [reflexivity|]; rewrite A; congruence). rewrite FR.
  assert (AR : forallb h_rst hs = true) by (clear - F; induction F as [|k h ks hs (A & _) F IH]; cbn; [reflexivity|]; now rewrite A).
  destruct hs; [apply closed_none|]. unfold rst_new. rewrite AR. cbn. discriminate.
Qed.

(** * Every connection gets its turn *)
Lemma pulls_fair pu sc : forall n g g' out k t a i, hears pu sc g -> pulls n g = Some (g', out) -> kid (g_l g) k = Some (t, a) -> nth_error (l_send (g_l g)) i = Some k -> (i < n)%nat ->
  exists h p, In (h, p) out /\ (h_dst h, h_src h) = a.
Proof.
  induction n as [|n IH]; intros g g' out k t a i H P K NI LT; [lia|]. cbn [pulls] in P. pose proof (hears_inv _ _ _ H) as GI. pose proof (gi_ok _ _ _ _ GI) as OK.
  destruct (l_pop (g_l g)) as [(l1, r)|] eqn:LP; [ob_in P|discriminate P]. destruct (lact g LPop) as [g1|] eqn:LA; [ob_in P|discriminate P]. destruct (pulls n g1) as [(g2, out2)|] eqn:P2; [ob_in P|discriminate P]. injection P as <- <-. cbn [snd].
  assert (H1 : hears pu sc g1) by (apply (HStep pu sc g LPop g1 H I LA)). assert (GL : g_l g1 = l1) by (cbn [lact] in LA; rewrite LP in LA; ob_in LA; injection LA as <-; reflexivity).
  apply pop_cases in LP; [|exact OK]. unfold pops in LP. destruct (l_send (g_l g)) as [|k1 rest] eqn:SL; [destruct i; discriminate NI|]. destruct LP as (t1 & a1 & t1' & h & p & K1 & TP & -> & _ & SY).
  destruct i as [|i].
  - cbn in NI. injection NI as ->. rewrite K in K1. injection K1 as <- <-. exists h, p. split; [now left|]. destruct (gi_kid _ _ _ _ GI _ _ _ K) as (s & OW & KN & _). symmetry. eapply own_addr; eauto.
  - cbn in NI. pose proof (lk_send_nd _ _ OK) as ND. rewrite SL in ND. inversion ND as [|? ? N1 ND']; subst. assert (NE : k <> k1) by (intros ->; apply N1; eapply nth_error_In; eauto).
    destruct (IH g1 g2 out2 k t a i) as (h2 & p2 & I2 & A2); auto; [| |lia|].
    + rewrite (sy_kid _ _ _ _ SY k). destruct (Z.eqb_spec k k1); [contradiction|exact K].
    + destruct (sy_send _ _ _ _ SY) as (w & _ & S1). cbn [set_lists l_send] in S1. rewrite S1. unfold send_after. destruct w.
      * destruct (contains_key k1 rest); [exact NI|]. rewrite nth_error_app1; [exact NI|]. apply nth_error_Some. congruence.
      * rewrite remove_first_none by exact N1. exact NI.
    + exists h2, p2. split; [|exact A2]. now right.
Qed.
Lemma fair_main pu sc g g' out k t a : hears pu sc g -> pulls (length (l_children (g_l g))) g = Some (g', out) -> kid (g_l g) k = Some (t, a) -> t_wants t = Some true -> exists h p, In (h, p) out /\ (h_dst h, h_src h) = a.
Proof.
  intros H P K W. pose proof (hears_inv _ _ _ H) as GI. pose proof (gi_ok _ _ _ _ GI) as OK. assert (IK : In k (l_send (g_l g))) by (apply (lk_send _ _ OK); [discriminate|exists t, a; auto]).
  apply In_nth_error in IK. destruct IK as (i & NI). eapply pulls_fair; eauto.
  assert (LE : (length (l_send (g_l g)) <= length (kids (g_l g)))%nat).
  { apply NoDup_incl_length; [exact (lk_send_nd _ _ OK)|]. intros j J. apply (lk_send _ _ OK) in J; [|discriminate]. destruct J as (u & b & J & _). eapply kid_key; eauto. }
  unfold kids in LE. rewrite map_length in LE. assert (i < length (l_send (g_l g)))%nat by (apply nth_error_Some; congruence). lia.
Qed.

(** * Running *)
Lemma lallowsb_ok pu g e : lallowsb pu g e = true -> lallows pu g e.
Proof.
  destruct e as [h p| | |k i|d|n|]; cbn [lallowsb lallows]; auto.
  - apply wireb_ok.
  - intros E t a s d K N. rewrite K, N in E. now apply Z.leb_le.
  - intros E. apply andb_true_iff in E. destruct E as (A & B). split; [now apply Z.leb_le|]. intros -> k t a s x K IX. cbn [negb orb] in B. rewrite forallb_forall in B. specialize (B _ (kid_in _ _ _ K)). cbn [fst snd] in B. rewrite forallb_forall in B. specialize (B _ IX). now apply Z.leb_le in B.
  - intros E. apply andb_true_iff in E. rewrite !Z.leb_le in E. exact E.
Qed.
Lemma lexec_hears pu sc : forall l g g', hears pu sc g -> lexec pu g l = Some g' -> hears pu sc g'.
Proof.
  induction l as [|e l IH]; intros g g' H E; cbn in E; [injection E as <-; exact H|]. destruct (lallowsb pu g e) eqn:AB; [rewrite assert_true in E by reflexivity|discriminate E].
  destruct (lact g e) as [g1|] eqn:A; [ob_in E|discriminate E]. eapply IH; [|exact E]. eapply HStep; eauto. now apply lallowsb_ok.
Qed.
Lemma lrun_case sc n l (P : hall -> Prop) : match lrun sc n l with Some g => P g | None => False end -> exists g, hears true sc g /\ P g.
Proof.
  unfold lrun. destruct ((0 <=? n) && (n <=? U32_MAX)) eqn:N; [rewrite assert_true by reflexivity|intros []]. destruct (lexec true (opened sc None n 0) l) as [g|] eqn:E; [|intros []]. intros X. exists g. split; [|exact X]. eapply lexec_hears; [|exact E]. apply HStart. apply andb_true_iff in N. rewrite !Z.leb_le in N. exact N.
Qed.

(** * The theorems *)
Lemma made_listed pu sc cf g k : ginv pu sc cf g -> made_at (g_l g) k = true -> In k (g_made g) /\ ~ In k (g_given g).
Proof.
  intros GI M. pose proof (proj2 (lk_acc _ _ (gi_ok _ _ _ _ GI) k ltac:(discriminate)) M) as I. split.
  - assert (X : In k (g_given g ++ l_accept (g_l g))) by (apply in_or_app; auto). rewrite (gi_eq _ _ _ _ GI) in X. now apply filter_In in X.
  - intros G. apply (gi_given _ _ _ _ GI) in G. unfold made_at in M. rewrite G in M. discriminate M.
Qed.
Lemma waiting_accept pu sc cf g : ginv pu sc cf g -> waiting g = l_accept (g_l g).
Proof.
  intros GI. unfold waiting. pose proof (f_equal (filter (made_at (g_l g))) (gi_eq _ _ _ _ GI)) as X. rewrite filter_filter, filter_app in X.
  rewrite (filter_none _ (g_given g)) in X.
  2:{ intros k I. apply (gi_given _ _ _ _ GI) in I. unfold made_at. now rewrite I. }
  rewrite (filter_all _ (l_accept (g_l g))) in X.
  2:{ intros k I. apply (lk_acc _ _ (gi_ok _ _ _ _ GI) k); [discriminate|exact I]. }
  cbn [app] in X. rewrite X. apply filter_ext. intros k. destruct (made_at (g_l g) k); [now rewrite orb_true_r|now rewrite andb_false_r].
Qed.
Lemma kids_main pu sc g : hears pu sc g ->
  (forall k t a, kid (g_l g) k = Some (t, a) -> kin (phase_of t) = true /\ exists s, own pu sc g k t a s) /\
  (forall j k t u a, kid (g_l g) j = Some (t, a) -> kid (g_l g) k = Some (u, a) -> j = k).
Proof.
  intros H. apply hears_inv in H. split.
  - intros k t a K. destruct (gi_kid _ _ _ _ H k t a K) as (s & O & N & _). eauto.
  - intros j k t u a J K. apply (lk_map _ _ (gi_ok _ _ _ _ H)) in J. apply (lk_map _ _ (gi_ok _ _ _ _ H)) in K. congruence.
Qed.
Lemma fifo_main pu sc g : hears pu sc g ->
  NoDup (g_made g) /\ (forall k, made_at (g_l g) k = true -> In k (g_made g)) /\ (forall k, In k (g_given g) -> kid (g_l g) k = None) /\
  g_given g ++ waiting g = filter (fun k => listed k (g_given g) || made_at (g_l g) k) (g_made g).
Proof.
  intros H. apply hears_inv in H. split; [exact (gi_nd _ _ _ _ H)|]. split; [intros k M; exact (proj1 (made_listed _ _ _ _ _ H M))|]. split; [exact (gi_given _ _ _ _ H)|].
  rewrite (waiting_accept _ _ _ _ H). exact (gi_eq _ _ _ _ H).
Qed.
Lemma accept_main pu sc g : hears pu sc g -> exists g', lact g LAccept = Some g' /\
  match waiting g with
  | [] => g_l g' = g_l g /\ g_given g' = g_given g /\ l_accept_call (g_l g) = Some (g_l g, Err ENothingToAccept) /\ p_ready (l_poll (g_l g)) = false
  | k :: rest => exists t a, kid (g_l g) k = Some (t, a) /\ l_accept_call (g_l g) = Some (g_l g', Ok t) /\ p_ready (l_poll (g_l g)) = true /\
      g_given g' = g_given g ++ [k] /\ waiting g' = rest /\ l_max (g_l g') = l_max (g_l g) /\ l_err (g_l g') = l_err (g_l g) /\ forall j, kid (g_l g') j = if j =? k then None else kid (g_l g) j
  end.
Proof.
  intros H. pose proof (hears_inv _ _ _ H) as GI. pose proof (gi_ok _ _ _ _ GI) as OK. destruct (accept_cases _ OK) as (l' & r & E & A).
  destruct (lact g LAccept) as [g'|] eqn:LA; [|unfold lact in LA; rewrite E in LA; ob_in LA; discriminate LA]. exists g'. split; [reflexivity|].
  assert (H' : hears pu sc g') by exact (HStep pu sc g LAccept g' H I LA). pose proof (hears_inv _ _ _ H') as GI'. rewrite (waiting_accept _ _ _ _ GI).
  unfold lact in LA. rewrite E in LA. ob_in LA. injection LA as LA. unfold accepts in A. destruct (l_accept (g_l g)) as [|k rest] eqn:AL.
  - destruct A as (-> & ->). rewrite <- LA. cbn [g_l g_given go fst snd]. rewrite app_nil_r. split; [reflexivity|]. split; [reflexivity|]. split; [exact E|]. unfold l_poll. cbn [p_ready]. now rewrite AL.
  - destruct A as (t & a & K & M & -> & OK' & KD & A1 & A2 & A3 & A4 & A5). assert (GL : g_l g' = l') by (rewrite <- LA; reflexivity). exists t, a. split; [exact K|]. rewrite GL. split; [exact E|]. split; [unfold l_poll; cbn [p_ready]; now rewrite AL|].
    split; [|split; [rewrite (waiting_accept _ _ _ _ GI'), GL; exact A1|auto]]. rewrite <- LA. cbn [g_given go fst snd g_l]. f_equal. apply filter_one; [exact (lk_nd _ _ OK)|eapply kid_key; exact K|].
    intros x X. apply key_kid in X. destruct X as (v & X). unfold is_kid. rewrite KD, X. destruct (x =? k); reflexivity.
Qed.
Lemma push_main pu sc g h p l' r : hears pu sc g -> l_push (g_now g) (g_l g) h p = Some (l', r) -> heard (g_now g) (g_l g) h p l' r.
Proof.
  intros H E. apply hears_inv in H. apply (push_cases _ _ _ _ _ _ (gi_ok _ _ _ _ H)) in E. unfold pushes in E. unfold heard. destruct (h_syn h && _); [destruct E as (-> & ->); auto|]. destruct (who _ _) as [(k, t)|].
  - destruct (half_open t && h_ack h && l_full (g_l g)); [destruct E as (-> & ->); auto|]. destruct E as (t' & E & SY). split; [apply SY|]. split; [apply SY|]. exists t'. split; [exact E|apply SY].
  - destruct (h_syn h); [|destruct E as (-> & ->); auto]. destruct E as (-> & t & A1 & A2 & A3 & A4 & A5 & A6 & A7 & A8 & A9). split; [exact A7|]. split; [exact A8|]. split; [reflexivity|]. exists (l_next (g_l g)), t. split; [exact A1|]. split; [unfold half_open; now rewrite A9|exact A2].
Qed.
Lemma queue_main pu sc n st g : modest pu sc n st g -> zlen (kids (g_l g)) <= 2 * n - 1.
Proof. intros M. apply modest_inv in M. unfold kids, zlen. rewrite map_length. apply M. Qed.
Lemma made_main pu sc n g : modest pu sc n true g -> n_made (g_l g) <= n.
Proof. intros M. rewrite <- (count_made _ (gi_ok _ _ _ _ (hears_inv _ _ _ (modest_hears _ _ _ _ _ M)))). apply modest_inv in M. now apply M. Qed.
Lemma pop_main pu sc g l' r : hears pu sc g -> l_pop (g_l g) = Some (l', r) ->
  l_max l' = l_max (g_l g) /\ l_err l' = l_err (g_l g) /\
  match r with
  | Ok (h, p) => l_wants (g_l g) = true /\ concat p = [] /\ exists k t t', kid (g_l g) k = Some (t, (h_dst h, h_src h)) /\ t_pop t = Some (t', Ok (h, p)) /\ becomes (g_l g) k t' l'
  | Err e => l_wants (g_l g) = false /\ e = ENoPacket /\ l' = g_l g /\ forall k t a, kid (g_l g) k = Some (t, a) -> t_wants t = Some false
  end.
Proof.
  intros H E. apply hears_inv in H. pose proof (gi_ok _ _ _ _ H) as OK. apply (pop_cases _ _ _ OK) in E. unfold pops in E. unfold l_wants. rewrite (lk_buf _ _ OK). cbn [negb orb].
  destruct (l_send (g_l g)) as [|k rest] eqn:SL.
  - destruct E as (-> & ->). split; [reflexivity|]. split; [reflexivity|]. split; [reflexivity|]. split; [reflexivity|]. split; [reflexivity|]. intros k t a K.
    destruct (lk_kid _ _ OK k t a ltac:(discriminate) K) as (W & _). destruct (t_wants t) as [[]|] eqn:TW; [|reflexivity|congruence]. exfalso.
    assert (X : In k (l_send (g_l g))) by (apply (lk_send _ _ OK k); [discriminate|exists t, a; auto]). rewrite SL in X. exact X.
  - destruct E as (t & a & t' & h & p & K & TP & -> & PE & SY). split; [apply SY|]. split; [apply SY|]. split; [reflexivity|].
    split; [clear - PE; unfold pay_empty in PE; induction p as [|x p IH]; [reflexivity|]; cbn in *; apply andb_prop in PE; destruct PE as (P1 & P2); apply Z.eqb_eq in P1; destruct x; [exact (IH P2)|unfold zlen in P1; cbn [length] in P1; lia]|]. destruct (gi_kid _ _ _ _ H k t a K) as (s & O & KN & _). pose proof (own_addr _ _ _ _ _ _ _ _ _ _ O TP KN) as ->. exists k, t, t'. split; [exact K|]. split; [exact TP|]. exact (sy_kid _ _ _ _ SY).
Qed.
Lemma wants_main pu sc g : hears pu sc g -> l_wants (g_l g) = true <-> exists k t a, kid (g_l g) k = Some (t, a) /\ t_wants t = Some true.
Proof.
  intros H. apply hears_inv in H. pose proof (gi_ok _ _ _ _ H) as OK. unfold l_wants. rewrite (lk_buf _ _ OK). cbn [negb orb]. split.
  - destruct (l_send (g_l g)) as [|k rest] eqn:SL; [discriminate|]. intros _. assert (X : In k (l_send (g_l g))) by (rewrite SL; now left). apply (lk_send _ _ OK k) in X; [|discriminate]. destruct X as (t & a & X). exists k, t, a. exact X.
  - intros (k & t & a & X). assert (I : In k (l_send (g_l g))) by (apply (lk_send _ _ OK k); [discriminate|exists t, a; exact X]). destruct (l_send (g_l g)); [contradiction I|reflexivity].
Qed.
