(** An epoll entry against the history. *)
From Verif Require Import Base FMap EpollModel EpollSpec.

Lemma has_inter a b x : has (ev_inter a b) x = has a x && has b x.
Proof. destruct x; reflexivity. Qed.
Lemma has_remove a b x : has (ev_remove a b) x = has a x && negb (has b x).
Proof. destruct x; reflexivity. Qed.
Lemma has_empty a : ev_is_empty a = true <-> forall b, has a b = false.
Proof.
  destruct a as [x y z]. unfold ev_is_empty. cbn. split.
  - intros E b. destruct x, y, z; try discriminate. now destruct b.
  - intros H. generalize (H IN) (H OUT) (H RDHUP). cbn. intros -> -> ->. reflexivity.
Qed.
Lemma has_nonempty a : ev_is_empty a = false <-> exists b, has a b = true.
Proof.
  destruct a as [x y z]. unfold ev_is_empty. cbn. split.
  - intros E. destruct x; [now exists IN|]. destruct y; [now exists OUT|]. destruct z; [now exists RDHUP|discriminate].
  - intros (b & H). destruct b; cbn in H; subst; cbn; now rewrite ?orb_true_r.
Qed.
Lemma on_events s b : has (events_from_state s) b = on s b.
Proof. destruct b; reflexivity. Qed.
Lemma on_state e b : on (state_from_events e) b = has e b.
Proof. destruct b; reflexivity. Qed.
Lemma on_map2 f x y b : on (st_map2 f x y) b = f (on x b) (on y b).
Proof. destruct b; reflexivity. Qed.
Lemma on_diff x y b : on (st_diff x y) b = on x b && negb (on y b).
Proof. apply on_map2. Qed.
Lemma on_union x y b : on (st_union x y) b = on x b || on y b.
Proof. apply on_map2. Qed.
Lemma on_xor x y b : on (st_xor x y) b = xorb (on x b) (on y b).
Proof. apply on_map2. Qed.
Lemma st_empty_on s : st_is_empty s = true -> (forall b, on s b = false) /\ st_active s = false /\ st_closed s = false.
Proof.
  destruct s as [a r w c h o]. unfold st_is_empty. cbn. intros E. destruct a, r, w, c, h, o; try discriminate.
  split; [|split; reflexivity]. now intros [].
Qed.
Lemma intersects_on x y b : on x b = true -> on y b = true -> st_intersects x y = true.
Proof.
  destruct x as [a r w c h o], y as [a' r' w' c' h' o']. unfold st_intersects, st_is_empty. destruct b; cbn; intros -> ->; cbn; now rewrite ?orb_true_r.
Qed.
Lemma intersects_closed x y : st_closed x = true -> st_closed y = true -> st_intersects x y = true.
Proof.
  destruct x as [a r w c h o], y as [a' r' w' c' h' o']. unfold st_intersects, st_is_empty. cbn; intros -> ->; cbn; now rewrite ?orb_true_r.
Qed.
Lemma intersects_active x y : st_active x = true -> st_active y = true -> st_intersects x y = true.
Proof.
  destruct x as [a r w c h o], y as [a' r' w' c' h' o']. unfold st_intersects, st_is_empty. cbn; intros -> ->; reflexivity.
Qed.

Lemma keqb_refl (k : key) : eqb k k = true.
Proof. now destruct (eqb_ok k k). Qed.

(** An event reported since its last edge was reported since the registration. *)
Lemma edge_reported_reported h k b : edge_reported h k b = true -> reported h k b = true.
Proof.
  induction h as [|[[o x] n] h IH]; [discriminate|]. cbn [edge_reported reported].
  destruct o as [c k' i d|f s g|m].
  - destruct x; [|exact IH|exact IH]. now destruct (eqb k' k).
  - destruct (_ && _); [discriminate|exact IH].
  - destruct x; [exact IH|exact IH|]. rewrite !orb_true_iff. intros [E|E]; auto.
Qed.

Section Entry.
Context (legacy : Z -> bool).

(** How an entry reflects the history of its descriptor. *)
Record entry_ok (h : hist) (k : key) (e : entry) (i : interest) (d : Z) : Prop := {
  eo_data : data e = d;
  eo_et : et (interest_of e) = et i;
  eo_oneshot : oneshot (interest_of e) = oneshot i;
  eo_legacy : is_legacy e = legacy (snd k);
  eo_want : forall b, has (want (interest_of e)) b = has (want i) b && (if oneshot i then negb (reported h k b) else true);
  eo_reported : forall b, has (want i) b = false -> reported h k b = false;
  eo_collected : et i = true -> forall b, on (collected e) b = edge_reported h k b;
  eo_state : forall b, has (want i) b = true -> on (state e) b = on (file_state h (snd k)) b;
  eo_active : legacy (snd k) = true -> st_active (state e) = st_active (file_state h (snd k));
  eo_closed : st_closed (state e) = false;
  eo_fclosed : st_closed (file_state h (snd k)) = false }.

(** Readiness does not depend on the priority. *)
Lemma ready_set_priority e p : entry_ready (set_priority e p) = entry_ready e.
Proof. reflexivity. Qed.
Lemma ok_set_priority h k e p i d : entry_ok h k e i d -> entry_ok h k (set_priority e p) i d.
Proof. intros []. constructor; assumption. Qed.
Lemma ok_cong h k e e' i d : set_priority e None = set_priority e' None -> entry_ok h k e i d -> entry_ok h k e' i d.
Proof.
  intros E H. apply (ok_set_priority h k e None) in H. rewrite E in H. destruct H. cbn in *. constructor; assumption.
Qed.
Lemma ready_cong e e' : set_priority e None = set_priority e' None -> entry_ready e = entry_ready e'.
Proof. intros E. rewrite <- (ready_set_priority e None), E. reflexivity. Qed.

(** The events an entry is ready for are those due. *)
Lemma ready_events_due h k e i d b : registered h k = Some (i, d) -> entry_ok h k e i d -> entry_ready e = true ->
  has (ready_events e) b = due legacy h k b.
Proof.
  intros R [Hd Het Hos Hl Hw Hr Hc Hs Ha Hcl Hfc] RD. unfold due. rewrite R. unfold entry_ready in RD. rewrite Hl, Hcl in RD.
  unfold ready_events, ready_state. rewrite has_inter, on_events, Hw, Het.
  assert (A : (if legacy (snd k) then st_active (file_state h (snd k)) else true) = true).
  { destruct (legacy (snd k)) eqn:L; [|reflexivity]. rewrite <- Ha by reflexivity. now destruct (st_active (state e)). }
  rewrite A, andb_true_r. destruct (has (want i) b) eqn:W; [|reflexivity]. cbn [andb].
  rewrite <- Hs by exact W. destruct (et i) eqn:T.
  - rewrite on_diff, Hc by reflexivity. destruct (oneshot i); cbn; rewrite ?andb_true_r;
      repeat match goal with |- context [?x && ?y] => destruct x; cbn end; reflexivity.
  - rewrite andb_true_r. rewrite andb_comm. reflexivity.
Qed.
Lemma ready_due h k e i d : registered h k = Some (i, d) -> entry_ok h k e i d ->
  (entry_ready e = true <-> ready_key legacy h k).
Proof.
  intros R OK. split.
  - intros RD. pose proof (fun b => ready_events_due h k e i d b R OK RD) as Q.
    assert (N : ev_is_empty (ready_events e) = false).
    { unfold entry_ready in RD. destruct (is_legacy e); repeat match type of RD with context [if ?c then _ else _] => destruct c end; try discriminate;
        destruct (ev_is_empty (ready_events e)); try reflexivity; try discriminate. now rewrite andb_false_r in RD. }
    apply has_nonempty in N. destruct N as (b & N). exists b. now rewrite <- Q.
  - intros (b & D). destruct OK as [Hd Het Hos Hl Hw Hr Hc Hs Ha Hcl Hfc].
    unfold due in D. rewrite R in D. rewrite !andb_true_iff in D. destruct D as ((((W & O) & E) & S) & A).
    assert (N : ev_is_empty (ready_events e) = false).
    { apply has_nonempty. exists b. unfold ready_events, ready_state. rewrite has_inter, on_events, Hw, Het, W, S. cbn [andb].
      destruct (et i) eqn:T; [|now rewrite Hs, O]. rewrite on_diff, Hc, Hs, O by assumption || reflexivity. exact E. }
    unfold entry_ready. rewrite Hl, Hcl, N. destruct (legacy (snd k)) eqn:L; [|reflexivity].
    rewrite Ha by reflexivity. now rewrite A.
Qed.

(** Operations on other descriptors leave it alone. *)
Lemma ok_ext h h' k e i d :
  file_state h' (snd k) = file_state h (snd k) -> (forall b, reported h' k b = reported h k b) ->
  (forall b, edge_reported h' k b = edge_reported h k b) -> entry_ok h k e i d -> entry_ok h' k e i d.
Proof.
  intros F R E []. constructor; intros; rewrite ?F, ?R, ?E in *; auto.
Qed.

(** A registration. *)
Lemma ok_registered h c k i d n e : c <> Del -> data e = d -> interest_of e = i -> is_legacy e = legacy (snd k) ->
  collected e = st_empty -> state e = file_state h (snd k) -> st_closed (file_state h (snd k)) = false ->
  entry_ok ((Ctl c k i d, Ok, n) :: h) k e i d.
Proof.
  intros NC D I L C S F.
  constructor; cbn [reported edge_reported file_state]; rewrite ?keqb_refl; try congruence; try tauto.
  - intros b. rewrite I. now destruct (oneshot i), (has (want i) b).
  - intros _ b. rewrite C. now destruct b.
Qed.

(** A change of the file, delivered to the entry. *)
Lemma ok_notified h f s grew r n k e i d e' : f = snd k -> st_closed s = false -> entry_ok h k e i d ->
  notify e s (st_xor s (file_state h f)) (grew && et i) = Some e' ->
  entry_ok ((Change f s grew, r, n) :: h) k e' i d.
Proof.
  intros -> NC [Hd Het Hos Hl Hw Hr Hc Hs Ha Hcl Hfc] E. unfold notify in E. rewrite Het in E.
  unfold assert_then in E. destruct (negb (grew && et i) || et i) eqn:G; [|discriminate]. injection E as <-.
  constructor; cbn [data interest_of is_legacy collected state file_state reported edge_reported]; rewrite ?Z.eqb_refl; auto.
  intros T b. rewrite T, andb_true_r. cbn [andb]. specialize (Hc T b).
  assert (Q : on (if grew && st_readable s then st_diff (st_diff (collected e) (st_xor s (file_state h (snd k)))) st_readable_only
                  else st_diff (collected e) (st_xor s (file_state h (snd k)))) b =
              edge_reported h k b && negb (xorb (on s b) (on (file_state h (snd k)) b)) &&
              negb (match b with IN => grew && st_readable s | _ => false end)).
  { destruct (grew && st_readable s); rewrite ?on_diff, on_xor, Hc; destruct b; cbn [on st_readable_only st_readable st_writable st_rdhup];
      rewrite ?andb_true_r, ?andb_false_r; reflexivity. }
  rewrite Q. destruct (xorb _ _); cbn; [now rewrite andb_false_r|].
  destruct (match b with IN => _ | _ => _ end); cbn; now rewrite ?andb_true_r, ?andb_false_r.
Qed.
(** A change of the file the entry was not interested in. *)
Lemma ok_unnotified h f s grew r n k e i d mask : f = snd k -> entry_ok h k e i d ->
  (forall b, has (want i) b = true -> on mask b = true) -> st_closed mask = true ->
  (legacy (snd k) = true -> st_active mask = true) ->
  st_intersects mask (st_xor s (file_state h f)) = false -> grew && et i = false ->
  entry_ok ((Change f s grew, r, n) :: h) k e i d /\ st_closed s = false.
Proof.
  intros -> [Hd Het Hos Hl Hw Hr Hc Hs Ha Hcl Hfc] M MC MA X G.
  assert (SB : forall b, has (want i) b = true -> on s b = on (file_state h (snd k)) b).
  { intros b W. destruct (Bool.eqb (on s b) (on (file_state h (snd k)) b)) eqn:Q; [now apply eqb_prop|].
    assert (Y : on (st_xor s (file_state h (snd k))) b = true).
    { rewrite on_xor. now destruct (on s b), (on (file_state h (snd k)) b). }
    rewrite (intersects_on _ _ b (M b W) Y) in X. discriminate. }
  assert (SC : st_closed s = false).
  { destruct (st_closed s) eqn:Q; [|reflexivity]. rewrite (intersects_closed mask (st_xor s (file_state h (snd k)))) in X; [discriminate|exact MC|].
    cbn. now rewrite Q, Hfc. }
  split; [|exact SC].
  constructor; cbn [file_state reported edge_reported]; rewrite ?Z.eqb_refl; auto.
  - intros T b. cbn [andb]. rewrite T, andb_true_r in G. rewrite G. cbn [andb].
    destruct (has (want i) b) eqn:W.
    + rewrite (SB b W), xorb_nilpotent. cbn. destruct b; auto.
    + destruct (_ || _); [|auto]. rewrite (Hc T). destruct (edge_reported h k b) eqn:Q; [|reflexivity].
      apply edge_reported_reported in Q. rewrite Hr in Q by exact W. discriminate.
  - intros b W. rewrite (SB b W). auto.
  - intros L. rewrite Ha by exact L. destruct (Bool.eqb (st_active s) (st_active (file_state h (snd k)))) eqn:Q; [symmetry; now apply eqb_prop|].
    rewrite (intersects_active mask (st_xor s (file_state h (snd k)))) in X; [discriminate|now apply MA|].
    cbn. now destruct (st_active s), (st_active (file_state h (snd k))).
Qed.

(** A wait that reports the descriptor, and one that does not. *)
Lemma ok_collected h m l n k e i d : registered h k = Some (i, d) -> entry_ok h k e i d -> entry_ready e = true ->
  (forall b, reports l k b = has (ready_events e) b) ->
  entry_ok ((Wait m, Events l, n) :: h) k (fst (entry_collect e)) i d /\
  snd (entry_collect e) = Some (ready_events e, d).
Proof.
  intros R OK RD RP. pose proof OK as [Hd Het Hos Hl Hw Hr Hc Hs Ha Hcl Hfc].
  assert (N : ev_is_empty (ready_events e) = false).
  { apply has_nonempty. apply (ready_due h k e i d R OK) in RD. destruct RD as (b & D).
    exists b. rewrite (ready_events_due h k e i d b R OK); [exact D|]. apply (ready_due h k e i d R OK). now exists b. }
  unfold entry_collect. rewrite N. cbn [fst snd]. split; [|now rewrite Hd].
  assert (SUB : forall b, has (ready_events e) b = true -> has (want i) b = true).
  { intros b. unfold ready_events. rewrite has_inter, Hw. now destruct (has (want i) b). }
  constructor; cbn [data interest_of is_legacy collected state file_state reported edge_reported]; auto.
  - now destruct (oneshot (interest_of e)).
  - destruct (oneshot (interest_of e)) eqn:O; [cbn; congruence|congruence].
  - intros b. rewrite Hos. destruct (oneshot i) eqn:O; [|rewrite Hw; reflexivity].
    cbn [want]. rewrite has_remove, Hw, RP. destruct (has (want i) b); [|reflexivity]. cbn [andb].
    rewrite negb_orb. apply andb_comm.
  - intros b W. rewrite RP, (Hr b W), orb_false_r. destruct (has (ready_events e) b) eqn:Q; [|reflexivity].
    apply SUB in Q. congruence.
  - intros T b. rewrite on_union, on_state, (Hc T), RP. apply orb_comm.
Qed.
Lemma ok_uncollected h m l n k e i d : entry_ok h k e i d -> (forall b, reports l k b = false) ->
  entry_ok ((Wait m, Events l, n) :: h) k e i d.
Proof.
  intros OK RP. apply (ok_ext h); [reflexivity| | |exact OK]; intros b; cbn [reported edge_reported]; now rewrite RP.
Qed.
End Entry.
