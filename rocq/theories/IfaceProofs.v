(** Proofs about socket associations and ephemeral ports. *)
From Verif Require Import Base FMap NetqModel IfaceModel IfaceSpec.

Lemma loopback_iff ip : is_loopback ip = (127 * 16777216 <=? ip) && (ip <? 128 * 16777216).
Proof. unfold is_loopback. apply Bool.eq_iff_eq_true. rewrite andb_true_iff, Z.eqb_eq, Z.leb_le, Z.ltb_lt. Z.to_euclidean_division_equations. lia. Qed.
Lemma coversb_iff pub w ip : coversb pub w ip = true <-> covers pub w ip.
Proof. unfold coversb, covers, loopback. destruct w; lia. Qed.

Definition akey_of (a proto port : Z) (peer : addr) : akey := (proto, ((a, port), peer)).
Definition look (ns : netns) (w : which) (proto port : Z) (peer : addr) : option Z :=
  get (akey_of (i_addr (ns_get ns w)) proto port peer) (i_recv (ns_get ns w)).
Record tracks (pub : Z) (hist : list nsop) (ns : netns) : Prop := {
  tr_ip : ns_ip ns = pub;
  tr_look : forall w proto port peer, look ns w proto port peer = holder pub w proto port peer hist }.

Definition hit (pub : Z) (w : which) (proto port : Z) (peer : addr) (p : Z) (b r : addr) : bool :=
  (p =? proto) && coversb pub w (fst b) && (snd b =? port) && same_addr r peer.

Lemma eqb_key (a p port p' port' : Z) (r r' : addr) :
  eqb (akey_of a p port r) (akey_of a p' port' r') = (p' =? p) && (port' =? port) && same_addr r' r.
Proof.
  destruct (eqb_ok (akey_of a p port r) (akey_of a p' port' r')) as [E|N].
  - unfold akey_of in E. injection E as -> -> ->. unfold same_addr. rewrite !Z.eqb_refl. reflexivity.
  - symmetry. apply not_true_is_false. intros T. apply N. unfold same_addr in T. destruct r as [x y], r' as [x' y']. cbn in T.
    assert (p' = p /\ port' = port /\ x' = x /\ y' = y) as (-> & -> & -> & ->) by lia. reflexivity.
Qed.

(** One interface. *)
Lemma assoc_look debug i s p port r i' : if_associate debug i s p port r = Some i' ->
  i_addr i' = i_addr i /\ forall proto port' peer, get (akey_of (i_addr i') proto port' peer) (i_recv i') =
    match get (akey_of (i_addr i) proto port' peer) (i_recv i) with
    | Some x => Some x
    | None => if (p =? proto) && (port =? port') && same_addr r peer then Some s else None
    end.
Proof.
  unfold if_associate. fold (akey_of (i_addr i) p port r). intros E.
  destruct (mem (akey_of (i_addr i) p port r) (i_recv i)) eqn:M.
  - destruct debug; [discriminate|]. injection E as <-. split; [reflexivity|]. intros. destruct (get _ _) eqn:G; [reflexivity|].
    rewrite <- (eqb_key (i_addr i)). destruct (eqb_ok (akey_of (i_addr i) proto port' peer) (akey_of (i_addr i) p port r)) as [E|N]; [|reflexivity].
    unfold mem in M. rewrite <- E, G in M. discriminate.
  - injection E as <-. split; [reflexivity|]. intros. cbn [i_addr i_recv]. rewrite get_put, eqb_key.
    unfold mem in M. destruct (get (akey_of (i_addr i) proto port' peer) (i_recv i)) eqn:G.
    + destruct ((p =? proto) && (port =? port') && same_addr r peer) eqn:T; [|reflexivity].
      rewrite <- (eqb_key (i_addr i)) in T. destruct (eqb_ok (akey_of (i_addr i) proto port' peer) (akey_of (i_addr i) p port r)) as [E|N]; [|discriminate].
      rewrite <- E, G in M. discriminate.
    + reflexivity.
Qed.
Lemma dis_look i p port r : forall proto port' peer, get (akey_of (i_addr i) proto port' peer) (i_recv (if_disassociate i p port r)) =
  if (p =? proto) && (port =? port') && same_addr r peer then None else get (akey_of (i_addr i) proto port' peer) (i_recv i).
Proof. intros. unfold if_disassociate. cbn [i_recv]. fold (akey_of (i_addr i) p port r). rewrite get_del, eqb_key. reflexivity. Qed.

Lemma unspec_iff ip : is_unspecified ip = (ip =? 0).
Proof. reflexivity. Qed.

(** Which interfaces a binding selects. *)
Lemma interface_covers pub ns ip w : ns_ip ns = pub -> is_unspecified ip = false ->
  coversb pub w ip = match ns_interface ns ip with Some w' => match w, w' with Lo, Lo | Inet, Inet => true | _, _ => false end | None => false end.
Proof.
  intros E U. unfold ns_interface, coversb. rewrite U, orb_false_r, E, <- loopback_iff. unfold is_unspecified in U. rewrite U. cbn [orb].
  destruct (is_loopback ip); destruct w; cbn; try reflexivity; rewrite ?andb_false_r, ?andb_true_r; destruct (ip =? pub); reflexivity.
Qed.
Lemma unspec_covers pub ip w : is_unspecified ip = true -> coversb pub w ip = true.
Proof. unfold is_unspecified, coversb. intros ->. reflexivity. Qed.

Lemma step_tracks debug pub hist ns o ns' : tracks pub hist ns -> ns_step debug ns o = Some ns' -> tracks pub (o :: hist) ns'.
Proof.
  intros [IP LK] E. destruct o as [s p b r|p b r|]; cbn [ns_step] in E.
  - unfold ns_associate in E. destruct (is_unspecified (fst b)) eqn:U.
    + destruct (if_associate debug (ns_lo ns) s p (snd b) r) as [lo|] eqn:E1; [|discriminate]. ob_in E.
      destruct (if_associate debug (ns_inet ns) s p (snd b) r) as [inet|] eqn:E2; [|discriminate]. ob_in E. injection E as <-.
      destruct (assoc_look _ _ _ _ _ _ _ E1) as [A1 G1], (assoc_look _ _ _ _ _ _ _ E2) as [A2 G2].
      constructor; [exact IP|]. intros w proto port peer. cbn [holder]. rewrite <- LK, (unspec_covers pub (fst b) w U), andb_true_r.
      unfold look. destruct w; cbn [ns_get ns_lo ns_inet]; [apply G1|apply G2].
    + pose proof (fun w => interface_covers pub ns (fst b) w IP U) as CV. destruct (ns_interface ns (fst b)) as [w0|].
      * destruct (if_associate debug (ns_get ns w0) s p (snd b) r) as [i|] eqn:E1; [|discriminate]. ob_in E. injection E as <-.
        destruct (assoc_look _ _ _ _ _ _ _ E1) as [A1 G1]. constructor; [destruct w0; exact IP|].
        intros w proto port peer. cbn [holder]. rewrite <- LK, CV. unfold look.
        destruct w, w0; cbn [ns_get ns_set ns_lo ns_inet]; rewrite ?andb_true_r, ?andb_false_r; cbn [andb];
          first [apply G1 | destruct (get _ _); reflexivity].
      * injection E as <-. constructor; [exact IP|]. intros w proto port peer. cbn [holder]. rewrite <- LK, CV, andb_false_r. cbn [andb].
        destruct (look ns w proto port peer); reflexivity.
  - injection E as <-. unfold ns_disassociate. destruct (is_unspecified (fst b)) eqn:U.
    + constructor; [exact IP|]. intros w proto port peer. cbn [holder]. rewrite <- LK, (unspec_covers pub (fst b) w U), andb_true_r.
      unfold look. destruct w; cbn [ns_get ns_lo ns_inet]; [apply (dis_look (ns_lo ns))|apply (dis_look (ns_inet ns))].
    + pose proof (fun w => interface_covers pub ns (fst b) w IP U) as CV. destruct (ns_interface ns (fst b)) as [w0|].
      * constructor; [destruct w0; exact IP|]. intros w proto port peer. cbn [holder]. rewrite <- LK, CV. unfold look.
        destruct w, w0; cbn [ns_get ns_set ns_lo ns_inet]; rewrite ?andb_true_r, ?andb_false_r; cbn [andb]; first [apply (dis_look (ns_lo ns))|apply (dis_look (ns_inet ns))|reflexivity].
      * constructor; [exact IP|]. intros w proto port peer. cbn [holder]. rewrite <- LK, CV, andb_false_r. reflexivity.
  - injection E as <-. constructor; [exact IP|]. intros w proto port peer. destruct w; reflexivity.
Qed.
Lemma run_tracks debug pub : forall ops hist ns ns', tracks pub hist ns -> ns_run debug ns ops = Some ns' -> tracks pub (rev ops ++ hist) ns'.
Proof.
  induction ops as [|o ops IH]; intros hist ns ns' T E; cbn [ns_run] in E.
  - injection E as <-. exact T.
  - destruct (ns_step debug ns o) as [ns1|] eqn:S; [|discriminate]. ob_in E. cbn [rev]. rewrite <- app_assoc. cbn [app].
    eapply IH; [eapply step_tracks; eassumption|exact E].
Qed.
Lemma new_tracks pub : tracks pub [] (ns_new pub).
Proof. constructor; [reflexivity|]. intros w proto port peer. destruct w; reflexivity. Qed.
Lemma history_tracks debug pub ops ns : ns_run debug (ns_new pub) ops = Some ns -> tracks pub (rev ops) ns.
Proof. intros E. rewrite <- (app_nil_r (rev ops)). eapply run_tracks; [apply new_tracks|exact E]. Qed.

Lemma target_receiver pub hist ns w proto port src : tracks pub hist ns -> if_target (ns_get ns w) proto port src = receiver pub w proto port src hist.
Proof.
  intros [IP LK]. unfold if_target, receiver. rewrite <- !LK. unfold look, akey_of, wildcard. reflexivity.
Qed.
Lemma delivery debug pub ops ns : ns_run debug (ns_new pub) ops = Some ns -> forall w proto port src,
  if_target (ns_get ns w) proto port src = receiver pub w proto port src (rev ops).
Proof. intros E w proto port src. apply target_receiver. eapply history_tracks; eassumption. Qed.

Lemma in_use_holder pub hist ns w proto port peer : tracks pub hist ns ->
  if_in_use (ns_get ns w) proto port peer = match holder pub w proto port peer hist with Some _ => true | None => false end.
Proof. intros [IP LK]. rewrite <- LK. reflexivity. Qed.

Lemma associate_total debug pub hist ns s p b r : tracks pub hist ns -> debug = false \/ vacant pub p b r hist ->
  exists ns', ns_associate debug ns s p b r = Some ns'.
Proof.
  intros T V.
  assert (A : forall w, coversb pub w (fst b) = true -> exists i, if_associate debug (ns_get ns w) s p (snd b) r = Some i).
  { intros w C. unfold if_associate. destruct V as [->|V]; [destruct (mem _ _); eauto|].
    pose proof (in_use_holder pub hist ns w p (snd b) r T) as H. rewrite (V w ltac:(now apply coversb_iff)) in H. unfold if_in_use in H. cbv zeta. setoid_rewrite H. eauto. }
  unfold ns_associate. destruct (is_unspecified (fst b)) eqn:U.
  - destruct (A Lo (unspec_covers _ _ _ U)) as (i & E1). destruct (A Inet (unspec_covers _ _ _ U)) as (j & E2). cbn [ns_get] in *. rewrite E1. ob. rewrite E2. ob. eauto.
  - pose proof (fun w => interface_covers pub ns (fst b) w (tr_ip _ _ _ T) U) as CV. destruct (ns_interface ns (fst b)) as [w|]; [|eauto].
    destruct (A w) as (i & E1); [rewrite CV; destruct w; reflexivity|]. rewrite E1. ob. eauto.
Qed.
Lemma history_total debug pub ops ns o : ns_run debug (ns_new pub) ops = Some ns ->
  (debug = true -> forall s p b r, o = NsAssoc s p b r -> vacant pub p b r (rev ops)) -> exists ns', ns_step debug ns o = Some ns'.
Proof.
  intros E V. pose proof (history_tracks _ _ _ _ E) as T. destruct o as [s p b r|p b r|]; cbn [ns_step]; eauto.
  eapply associate_total; [exact T|]. destruct debug; [right; eapply V; eauto|left; reflexivity].
Qed.

Lemma hit_covers pub w proto port peer p b r : hit pub w proto port peer p b r = true -> covers pub w (fst b) /\ p = proto /\ snd b = port /\ r = peer.
Proof.
  unfold hit, same_addr. intros H. assert (coversb pub w (fst b) = true /\ p = proto /\ snd b = port /\ fst r = fst peer /\ snd r = snd peer) as (C & P & Q & X & Y) by lia.
  split; [now apply coversb_iff|]. split; [exact P|]. split; [exact Q|]. destruct r, peer; cbn in *; subst; reflexivity.
Qed.
Lemma restore debug pub ops ns ns' s p b r : ns_run debug (ns_new pub) ops = Some ns -> vacant pub p b r (rev ops) ->
  ns_run debug ns [NsAssoc s p b r; NsDis p b r] = Some ns' ->
  forall w proto port src, if_target (ns_get ns' w) proto port src = if_target (ns_get ns w) proto port src.
Proof.
  intros E V E2 w proto port src. pose proof (history_tracks _ _ _ _ E) as T.
  rewrite (target_receiver pub _ ns _ _ _ _ T). rewrite (target_receiver pub _ ns' _ _ _ _ (run_tracks _ _ _ _ _ _ T E2)). cbn [rev app].
  assert (H : forall peer, holder pub w proto port peer (NsDis p b r :: NsAssoc s p b r :: rev ops) = holder pub w proto port peer (rev ops)).
  { intros peer. cbn [holder]. fold (hit pub w proto port peer p b r). destruct (hit pub w proto port peer p b r) eqn:Hh.
    - apply hit_covers in Hh as (C & <- & <- & <-). symmetry. now apply V.
    - destruct (holder pub w proto port peer (rev ops)); reflexivity. }
  unfold receiver. rewrite !H. reflexivity.
Qed.
Lemma assoc_effect debug pub ops ns ns' s p b r : ns_run debug (ns_new pub) ops = Some ns -> ns_associate debug ns s p b r = Some ns' ->
  vacant pub p b r (rev ops) -> forall w, covers pub w (fst b) ->
  (r <> (0, 0) -> if_target (ns_get ns' w) p (snd b) r = Some s) /\
  (r = (0, 0) -> forall src, holder pub w p (snd b) src (rev ops) = None -> if_target (ns_get ns' w) p (snd b) src = Some s).
Proof.
  intros E E2 V w C. pose proof (history_tracks _ _ _ _ E) as T. pose proof (step_tracks debug pub _ ns (NsAssoc s p b r) ns' T E2) as T'.
  assert (S : hit pub w p (snd b) r p b r = true).
  { unfold hit, same_addr. rewrite (proj2 (coversb_iff _ _ _) C), !Z.eqb_refl. reflexivity. }
  assert (H : holder pub w p (snd b) r (NsAssoc s p b r :: rev ops) = Some s).
  { cbn [holder]. rewrite (V w C). fold (hit pub w p (snd b) r p b r). rewrite S. reflexivity. }
  split.
  - intros _. rewrite (target_receiver pub _ ns' _ _ _ _ T'). unfold receiver. rewrite H. reflexivity.
  - intros -> src HS. rewrite (target_receiver pub _ ns' _ _ _ _ T'). unfold receiver. rewrite H. cbn [holder]. rewrite HS.
    destruct (_ && _); reflexivity.
Qed.

(* ------------------------------------------------------------------ ports *)
Lemma taken_iff pub hist ns proto ip peer port : tracks pub hist ns ->
  port_taken ns proto ip peer port = false <-> port_free pub proto ip peer hist port.
Proof.
  intros T. unfold port_taken, port_free, receiver.
  assert (U : forall dst, or_true (ns_in_use ns proto (ip, port) dst) = false <->
    (exists w, covers pub w ip) /\ forall w, covers pub w ip -> holder pub w proto port dst hist = None).
  { intros dst. unfold ns_in_use. cbn [fst snd].
    assert (IU : forall w, if_in_use (ns_get ns w) proto port dst = false <-> holder pub w proto port dst hist = None).
    { intros w. rewrite (in_use_holder pub hist ns w proto port dst T). destruct (holder _ _ _ _ _ _); split; congruence. }
    destruct (is_unspecified ip) eqn:Un; cbn [or_true].
    - pose proof (IU Lo) as A. pose proof (IU Inet) as B. cbn [ns_get] in *. rewrite orb_false_iff, A, B.
      split; [intros [X Y]; split; [exists Lo; apply coversb_iff, unspec_covers; exact Un|intros [|] _; assumption]|].
      intros [_ X]. split; apply X, coversb_iff, unspec_covers; exact Un.
    - pose proof (fun w => interface_covers pub ns ip w (tr_ip _ _ _ T) Un) as CV. destruct (ns_interface ns ip) as [w0|]; cbn [or_true].
      + rewrite IU. assert (CC : forall w, covers pub w ip <-> w = w0) by (intros w; rewrite <- coversb_iff, CV; destruct w, w0; split; congruence).
        split; [intros X; split; [exists w0; now apply CC|intros w C; apply CC in C; now subst]|intros [_ X]; apply X; now apply CC].
      + split; [discriminate|]. intros [[w C] _]. apply coversb_iff in C. rewrite CV in C. discriminate. }
  rewrite orb_false_iff, !U. unfold wildcard. split.
  - intros [[X A] [_ B]]. split; [exact X|]. intros w C. rewrite (A w C). now apply B.
  - intros [X A]. split; (split; [exact X|]); intros w C; specialize (A w C); destruct (holder pub w proto port peer hist); try discriminate; auto.
Qed.
Lemma in_zrange a n x : In x (zrange a n) <-> a <= x < a + n.
Proof.
  unfold zrange. assert (H : forall k a, In x (count_up k a) <-> a <= x < a + Z.of_nat k).
  { induction k as [|k IH]; intros b; cbn [count_up In]; [lia|]. rewrite IH. lia. }
  rewrite H. lia.
Qed.
Lemma free_port_tracks pub hist ns proto ip peer rng : tracks pub hist ns -> (forall k, port_range (rng k)) ->
  match get_random_free_port ns proto ip peer rng with
  | Some p => port_range p /\ port_free pub proto ip peer hist p
  | None => forall p, port_range p -> ~ port_free pub proto ip peer hist p
  end.
Proof.
  intros T R. unfold get_random_free_port.
  assert (TK : forall p, negb (port_taken ns proto ip peer p) = true <-> port_free pub proto ip peer hist p).
  { intros p. rewrite <- (taken_iff pub _ ns proto ip peer p T). destruct (port_taken _ _ _ _ _); cbn; split; congruence. }
  destruct (find _ (map rng (seq 0 10))) as [p|] eqn:F.
  - apply find_some in F as [I F]. apply in_map_iff in I as (k & <- & _). split; [apply R|now apply TK].
  - clear F. pose proof (R 10%nat) as RS. unfold port_range in *. set (st := rng 10%nat) in *.
    destruct (find _ (zrange st _ ++ _)) as [p|] eqn:F.
    + apply find_some in F as [I F]. split; [|now apply TK]. apply in_app_iff in I. rewrite !in_zrange in I. unfold U16_MAX, MIN_RANDOM_PORT in I. lia.
    + intros p P C. pose proof (find_none _ _ F p) as N. cbv beta in N. apply TK in C. rewrite N in C; [discriminate|].
      apply in_app_iff. rewrite !in_zrange. unfold U16_MAX, MIN_RANDOM_PORT. lia.
Qed.
Lemma free_port debug pub ops ns proto ip peer rng : ns_run debug (ns_new pub) ops = Some ns -> (forall k, port_range (rng k)) ->
  match get_random_free_port ns proto ip peer rng with
  | Some p => port_range p /\ port_free pub proto ip peer (rev ops) p
  | None => forall p, port_range p -> ~ port_free pub proto ip peer (rev ops) p
  end.
Proof. intros E. apply free_port_tracks. exact (history_tracks _ _ _ _ E). Qed.
