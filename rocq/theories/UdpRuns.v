(** What the specification's facts say about runs of the model. *)
From Coq Require Import Sorting.Sorted.
From Verif Require Import Base FMap NetqModel NetqSpec NetqProofs IfaceModel IfaceSpec IfaceProofs UdpModel UdpSpec UdpProofs UdpFacts.

(* ------------------------------------------------------------------ subsequences *)
Lemma subseq_refl {A} (l : list A) : subseq l l.
Proof. induction l; constructor; auto. Qed.
Lemma subseq_skips {A} (a l : list A) : forall p, subseq a l -> subseq a (p ++ l).
Proof. induction p; intros; [assumption|]. constructor. auto. Qed.
Lemma subseq_app {A} (a b c d : list A) : subseq a b -> subseq c d -> subseq (a ++ c) (b ++ d).
Proof. induction 1; intros H2; cbn; [now apply subseq_skips|constructor; auto|constructor; auto]. Qed.
Lemma subseq_pre {A} (a b : list A) : subseq a (a ++ b).
Proof. induction a; constructor; auto. Qed.
Lemma subseq_trans {A} (b c : list A) : subseq b c -> forall a, subseq a b -> subseq a c.
Proof.
  induction 1 as [l|x b c S IH|x b c S IH]; intros a Q.
  - inversion Q. constructor.
  - inversion Q; subst; [constructor|constructor; auto|constructor; auto].
  - constructor. auto.
Qed.
Lemma subseq_in {A} (a b : list A) x : subseq a b -> In x a -> In x b.
Proof. induction 1; cbn; intuition. Qed.

Section Runs.
Variable pub : Z.
Variable known : Z -> bool.
Variable disc : kind.
Hypothesis PUB : pub_ok pub.

(* ------------------------------------------------------------------ fates *)
Lemma received_fate st w d now l st' : received pub st w d now l st' -> fates l = [d] /\ leaving l = [].
Proof. intros R. destruct R; auto. Qed.
Lemma routed_fate st d now l st' : routed pub known st d now l st' -> fates l = [d] /\ leaving l = [].
Proof. intros R. destruct R; auto; eapply received_fate; eassumption. Qed.
Lemma syscall_fate st s k o r l st' : syscall pub known st s k o r l st' -> fates l = [] /\ leaving l = [].
Proof. intros C. destruct C; auto. Qed.
Lemma ustep_fate st o r l st' : ustep pub known disc st o r l st' -> fates l = entered o l.
Proof.
  intros U. destruct U; try reflexivity.
  - destruct (syscall_fate _ _ _ _ _ _ _ H2) as [-> E]. destruct o; try discriminate; symmetry; exact E.
  - destruct o; try discriminate; reflexivity.
  - cbn. destruct (routed_fate _ _ _ _ _ H4) as [E1 E2]. unfold fates, leaving in *. rewrite E1, E2. reflexivity.
  - cbn. destruct (routed_fate _ _ _ _ _ H) as [E1 E2]. exact E1.
Qed.
Lemma urun_fate st ops ls st' : urun pub known disc st ops ls st' -> fates (labels ls) = entering ops ls.
Proof.
  induction 1 as [st|st st1 st2 o r l ops rs S R IH]; [reflexivity|]. unfold labels, fates in *. cbn [map snd concat entering]. rewrite flat_map_app, IH.
  f_equal. exact (ustep_fate _ _ _ _ _ S).
Qed.

(* ------------------------------------------------------------------ order between two sockets *)
Lemma conveyed_lefts a b ls : subseq (conveyed a b ls) (lefts a (labels ls)).
Proof.
  induction ls as [|[r l] ls IH]; [constructor|]. unfold labels, lefts, conveyed in *. cbn [map snd concat flat_map]. rewrite flat_map_app. apply subseq_app; [|exact IH].
  destruct l as [|x l]; [constructor|]. destruct x; try constructor. destruct l as [|y l]; [constructor|]. destruct y; try constructor. destruct l; [|constructor].
  cbn. destruct (s =? a); cbn; [|constructor]. destruct (s0 =? b); constructor. constructor.
Qed.
Lemma received_arrived st w d now l st' b : received pub st w d now l st' -> subseq (puts b l) [d].
Proof. intros R. destruct R; cbn; [constructor|constructor|constructor|]. destruct (s =? b); [apply subseq_refl|constructor]. Qed.
Lemma routed_arrived st d now l st' b : routed pub known st d now l st' -> subseq (puts b l) [d].
Proof. intros R. destruct R; try (eapply received_arrived; eassumption); constructor. Qed.
Lemma urun_arrived st ops ls st' b : urun pub known disc st ops ls st' -> subseq (arrived b ops ls) (arrivals ops).
Proof.
  induction 1 as [st|st st1 st2 o r l ops rs S R IH]; [constructor|]. unfold arrivals in *. cbn [arrived flat_map]. apply subseq_app; [|exact IH].
  destruct o; try apply SubNil. inversion S; subst; [discriminate|discriminate|]. eapply routed_arrived. eassumption.
Qed.

(** Facts about a run from the start. *)
Lemma run_queues ops ls st : urun pub known disc empty_host ops ls st -> forall s,
  puts s (labels ls) = takes s (labels ls) ++ inbox st s /\ sents s (labels ls) = lefts s (labels ls) ++ outbox st s.
Proof.
  intros U s. pose proof (urun_moves pub known disc PUB False _ _ _ _ U ltac:(tauto)) as M. exact (moves_queues pub known disc False _ _ _ s M (empty_inv pub known False)).
Qed.
Lemma run_pair ops ls st : urun pub known disc empty_host ops ls st -> forall a b, subseq (conveyed a b ls) (sents a (labels ls)).
Proof. intros U a b. destruct (run_queues _ _ _ U a) as [_ ->]. eapply subseq_trans; [apply subseq_pre|apply conveyed_lefts]. Qed.
Lemma run_order ops ls st : urun pub known disc empty_host ops ls st -> disc = MinPriority -> forall w, StronglySorted Z.lt (numbers w (labels ls)).
Proof.
  intros U DM w. pose proof (urun_moves pub known disc PUB False _ _ _ _ U ltac:(tauto)) as M.
  destruct (moves_order pub known disc False _ _ _ w DM M (-1) (empty_inv pub known False)) as [A _]; [|exact A]. split; [cbn; lia|]. intros s k n d S. discriminate.
Qed.
Lemma run_inv (P : Prop) ops ls st : urun pub known disc empty_host ops ls st -> (P -> Forall plain ops) -> sinv pub P st.
Proof. intros U PL. pose proof (urun_moves pub known disc PUB P _ _ _ _ U PL) as M. exact (moves_inv pub known disc P _ _ _ M (empty_inv pub known P)). Qed.
Lemma urun_app st a ls st1 b ls2 st2 : urun pub known disc st a ls st1 -> urun pub known disc st1 b ls2 st2 -> urun pub known disc st (a ++ b) (ls ++ ls2) st2.
Proof. induction 1; intros U; [exact U|]. cbn. econstructor; eauto. Qed.
Lemma urun_split st a b ls st2 : urun pub known disc st (a ++ b) ls st2 -> exists l1 l2 st1, ls = l1 ++ l2 /\ urun pub known disc st a l1 st1 /\ urun pub known disc st1 b l2 st2.
Proof.
  revert st ls. induction a as [|o a IH]; intros st ls U; [exists [], ls, st; split; [reflexivity|]; split; [constructor|exact U]|].
  inversion U as [|? st1 ? ? r l ? rs S1 R1]; subst. destruct (IH _ _ R1) as (l1 & l2 & st3 & -> & U1 & U2). exists ((r, l) :: l1), l2, st3. split; [reflexivity|]. split; [econstructor; eassumption|exact U2].
Qed.
Lemma urun_len st ops ls st' : urun pub known disc st ops ls st' -> length ls = length ops.
Proof. induction 1; cbn; congruence. Qed.

(** Whence a datagram in a mailbox: sent on this host, or arrived. *)
Lemma fates_in l x : In x (fates l) <-> exists y, In y l /\ match y with LWire d | LPut _ d | LDrop d => d = x | _ => False end.
Proof. unfold fates. rewrite in_flat_map. split; intros (y & I & Q); exists y; (split; [exact I|]); destruct y; cbn in *; intuition. Qed.
Lemma leaving_lefts l x : In x (leaving l) -> exists n s, In (n, x) (lefts s l).
Proof.
  unfold leaving. rewrite in_flat_map. intros (y & I & Q). destruct y; cbn in Q; try contradiction. destruct Q as [<- |[]]. exists n, s.
  unfold lefts. apply in_flat_map. exists (LLeft w n s d). split; [exact I|]. rewrite Z.eqb_refl. now left.
Qed.
Lemma entering_in ops ls x : length ls = length ops -> In x (entering ops ls) -> In x (arrivals ops) \/ In x (leaving (labels ls)).
Proof.
  revert ls. induction ops as [|o ops IH]; intros [|[r l] ls] L I; try discriminate; [contradiction|]. cbn [entering] in I. unfold arrivals, labels, leaving in *. cbn [flat_map map snd concat].
  rewrite flat_map_app, !in_app_iff. apply in_app_iff in I as [I|I]; [|destruct (IH ls ltac:(cbn in L; lia) I); auto].
  destruct o; cbn in I |- *; auto.
Qed.
Lemma sents_in s l n d : In (n, d) (sents s l) <-> In (LSent n s d) l.
Proof.
  unfold sents. rewrite in_flat_map. split.
  - intros (y & I & Q). destruct y; try contradiction. destruct (Z.eqb_spec s0 s) as [-> |]; [|contradiction]. destruct Q as [[= -> ->]|[]]. exact I.
  - intros I. eexists. split; [exact I|]. cbn. rewrite Z.eqb_refl. now left.
Qed.
Lemma run_origin ops ls st d : urun pub known disc empty_host ops ls st -> In d (fates (labels ls)) ->
  In d (arrivals ops) \/ exists n s, In (LSent n s d) (labels ls).
Proof.
  intros U I. rewrite (urun_fate _ _ _ _ U) in I. apply entering_in in I as [I|I]; [now left| |exact (urun_len _ _ _ _ U)].
  right. apply leaving_lefts in I as (n & s & I). exists n, s. apply sents_in. destruct (run_queues _ _ _ U s) as [_ ->]. apply in_or_app. now left.
Qed.
(** A sent datagram was the argument of a send that succeeded. *)
Lemma sent_call st ops ls st' n s d : urun pub known disc st ops ls st' -> In (LSent n s d) (labels ls) ->
  exists x rng, In (USend s x rng, UNum (blen (d_data d))) (combine ops (map fst ls)) /\ sa_data x = d_data d /\
    (sa_addr x = Some (Some (d_to d)) \/ sa_addr x = None).
Proof.
  induction 1 as [st|st st1 st2 o r l ops rs S R IH]; intros I; [contradiction|]. unfold labels in I. cbn [map snd concat] in I. apply in_app_iff in I as [I|I].
  - assert (X : exists x rng, o = USend s x rng /\ r = UNum (blen (d_data d)) /\ sa_data x = d_data d /\ (sa_addr x = Some (Some (d_to d)) \/ sa_addr x = None)).
    { destruct S; try contradiction.
      - destruct H2; try contradiction; try (destruct I as [I|[]]; discriminate).
        destruct I as [I|[]]. injection I as <- <- <-. exists x, rng. split; [reflexivity|]. split; [reflexivity|]. split; [reflexivity|]. cbn.
        unfold target in H4. destruct (sa_addr x) as [[a|]|]; [injection H4 as ->; auto|discriminate|auto].
      - exfalso. destruct I as [I|I]; [discriminate|]. destruct H4 as [l st' _ RC|l st' _ RC| |]; [destruct RC|destruct RC| |]; destruct I as [I|[]]; discriminate.
      - exfalso. destruct H as [l st' _ RC|l st' _ RC| |]; [destruct RC|destruct RC| |]; destruct I as [I|[]]; discriminate. }
    destruct X as (x & rng & -> & -> & E). exists x, rng. split; [left; reflexivity|exact E].
  - destruct (IH I) as (x & rng & IN & E). exists x, rng. split; [right; exact IN|exact E].
Qed.

(* ------------------------------------------------------------------ what is pending *)
Fixpoint tally (f : Z -> nat) (n : nat) : nat := match n with O => O | S n => (f (Z.of_nat n) + tally f n)%nat end.
Lemma tally_ext f g n : (forall x, 0 <= x < Z.of_nat n -> f x = g x) -> tally f n = tally g n.
Proof. induction n as [|n IH]; intros H; [reflexivity|]. cbn [tally]. rewrite IH, H by (intros; rewrite ?H; lia || auto). reflexivity. Qed.
Lemma tally_set f g n s : 0 <= s < Z.of_nat n -> (forall x, x <> s -> g x = f x) -> (tally g n + f s = tally f n + g s)%nat.
Proof.
  induction n as [|n IH]; intros B H; [lia|]. cbn [tally]. destruct (Z.eq_dec s (Z.of_nat n)) as [-> |N].
  - rewrite (tally_ext g f n) by (intros x X; apply H; lia). lia.
  - rewrite (H (Z.of_nat n)) by lia. specialize (IH ltac:(lia) H). lia.
Qed.
Definition pend (st : sstate) : nat := tally (fun s => length (outbox st s)) (Z.to_nat (ss_next st)).
Lemma pend_set1 (P : Prop) st st' s k k' : sinv pub P st -> ss_sock st s = Some k -> set1 st st' s k' -> ss_next st' = ss_next st ->
  (pend st' + length (s_out k) = pend st + length (s_out k'))%nat.
Proof.
  intros V S X E. unfold pend. rewrite E. pose proof (si_id _ _ _ V s k S) as B. pose proof (si_next _ _ _ V) as B0.
  assert (O1 : outbox st s = s_out k) by (unfold outbox; rewrite S; reflexivity).
  assert (O2 : outbox st' s = s_out k') by (unfold outbox; rewrite X, Z.eqb_refl; reflexivity).
  rewrite <- O1, <- O2. apply (tally_set (fun x => length (outbox st x)) (fun x => length (outbox st' x)) (Z.to_nat (ss_next st)) s); [lia|].
  intros x NE. unfold outbox. rewrite X. destruct (Z.eqb_spec x s); [contradiction|reflexivity].
Qed.
Definition nsent (l : list label) : nat := length (flat_map (fun x => match x with LSent _ _ _ => [tt] | _ => [] end) l).
Lemma move_pend (P : Prop) st l st' : move pub disc P st l st' -> sinv pub P st -> (pend st' + length (leaving l) = pend st + nsent l)%nat.
Proof.
  intros M V. destruct M.
  - unfold leaving, nsent. rewrite !notes_none by auto. reflexivity.
  - pose proof (pend_set1 P st st' s k k' V H H6 (proj1 (proj2 H7))) as E. rewrite H3 in E. destruct H5 as [[-> _]|(d & t & -> & _)]; cbn; lia.
  - pose proof (pend_set1 P st st' s k _ V H H5 (proj1 (proj2 H6))) as E. cbn in E |- *. lia.
  - pose proof (pend_set1 P st st' s k _ V H H4 H6) as E. cbn [s_out s_set_out] in E. rewrite app_length in E. cbn in E |- *. lia.
  - pose proof (pend_set1 P st st' s k _ V H H0 (proj1 (proj2 H1))) as E. cbn in E |- *. lia.
  - cbn. unfold pend. rewrite H1. pose proof (si_next _ _ _ V) as B0. replace (Z.to_nat (ss_next st + 1)) with (S (Z.to_nat (ss_next st))) by lia. cbn [tally].
    rewrite Z2Nat.id by lia. unfold outbox at 1. rewrite H, Z.eqb_refl. cbn. rewrite !Nat.add_0_r. apply tally_ext. intros x X. unfold outbox. rewrite H. destruct (Z.eqb_spec x (ss_next st)); [lia|reflexivity].
  - pose proof (pend_set1 P st st' s k _ V H0 H4 (proj1 (proj2 H5))) as E. rewrite H2 in E. cbn in E |- *. lia.
  - pose proof (pend_set1 P st st' s k _ V H0 H2 (proj1 (proj2 H3))) as E. cbn in E |- *. lia.
  - cbn. unfold pend. rewrite H2, !Nat.add_0_r. apply tally_ext. intros x X. unfold outbox. rewrite H0. reflexivity.
Qed.
Lemma moves_pend (P : Prop) st l st' : moves pub disc P st l st' -> sinv pub P st -> (pend st' + length (leaving l) = pend st + nsent l)%nat.
Proof.
  induction 1 as [st|st l st1 l2 st2 M MS IH]; intros V; [reflexivity|]. pose proof (move_pend _ _ _ _ M V) as A. pose proof (IH (move_inv pub known disc P _ _ _ M V)) as B.
  unfold leaving, nsent in *. rewrite !flat_map_app, !app_length. lia.
Qed.
Lemma ustep_nsent st o r l st' : ustep pub known disc st o r l st' -> (nsent l <= 1)%nat /\ (match o with UForward _ _ => nsent l = 0%nat | _ => True end).
Proof.
  intros U. destruct U; cbn; auto.
  - destruct H2; cbn in *; auto.
  - split; [lia|]. destruct o; auto.
  - destruct H4 as [l st' _ RC|l st' _ RC| |]; [destruct RC|destruct RC| |]; cbn; auto.
  - destruct H as [l st' _ RC|l st' _ RC| |]; [destruct RC|destruct RC| |]; cbn; auto.
Qed.
Lemma urun_pend (P : Prop) st ops ls st' : urun pub known disc st ops ls st' -> (P -> Forall plain ops) -> sinv pub P st -> (pend st' <= pend st + length ops)%nat.
Proof.
  induction 1 as [st|st st1 st2 o r l ops rs S R IH]; intros PL V; [lia|]. assert (P1 : P -> plain o) by (intros p; specialize (PL p); inversion PL; assumption).
  pose proof (ustep_moves pub known disc PUB P _ _ _ _ _ S P1) as M. pose proof (moves_pend _ _ _ _ M V) as A. destruct (ustep_nsent _ _ _ _ _ S) as [B _].
  specialize (IH ltac:(intros p; specialize (PL p); inversion PL; assumption) (moves_inv pub known disc P _ _ _ M V)). cbn [length]. lia.
Qed.
End Runs.
