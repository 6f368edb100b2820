(** Facts about runs of the specification of UDP sockets. *)
From Coq Require Import Sorting.Sorted.
From Verif Require Import Base NetqModel IfaceModel IfaceSpec IfaceProofs UdpModel UdpSpec.

Definition set1 (st st' : sstate) (s : Z) (k : ssock) : Prop := forall x, ss_sock st' x = if x =? s then Some k else ss_sock st x.
Definition rest_same (st st' : sstate) : Prop := ss_seq st' = ss_seq st /\ ss_next st' = ss_next st /\ forall w, ss_busy st' w = ss_busy st w.
Definition taken_by (s : Z) (l : list label) (a b : list (dgram * Z)) : Prop :=
  (l = [] /\ b = a) \/ (exists d t, l = [LTake s d] /\ a = (d, t) :: b).

Section Facts.
Variable pub : Z.
Variable known : Z -> bool.
Variable disc : kind.
Hypothesis PUB : pub_ok pub.
(** [P]: only the usual loopback address is bound to. *)
Variable P : Prop.

(** Steps are made of a few kinds of moves. *)
Inductive move (st : sstate) : list label -> sstate -> Prop :=
| MNote l : (forall x, In x l -> match x with LDrop _ | LWire _ => True | _ => False end) -> move st l st
| MQuiet s k k' l st' : ss_sock st s = Some k -> s_open k = true -> s_open k' = s_open k -> s_bound k' = s_bound k -> s_out k' = s_out k ->
    (s_peer k' = s_peer k \/ s_bound k <> None) -> taken_by s l (s_in k) (s_in k') -> set1 st st' s k' -> rest_same st st' -> move st l st'
| MBind s k b st' : ss_sock st s = Some k -> s_open k = true -> s_bound k = None -> local_ip pub (fst b) -> unused pub st (fst b) (snd b) ->
    (P -> loopback (fst b) -> fst b = LOCALHOST) -> set1 st st' s (s_set_bound k (Some b)) -> rest_same st st' -> move st [] st'
| MSend s k b dst m st' : ss_sock st s = Some k -> s_open k = true -> s_bound k = Some b -> reaches b dst -> blen m <= 65507 ->
    set1 st st' s (s_set_out k (s_out k ++ [(ss_seq st, mkD (source pub b dst) dst m)])) -> ss_seq st' = ss_seq st + 1 -> ss_next st' = ss_next st ->
    (forall w, ss_busy st' w = if which_eqb w (woken b) then true else ss_busy st w) -> move st [LSent (ss_seq st) s (mkD (source pub b dst) dst m)] st'
| MClose s k st' : ss_sock st s = Some k -> set1 st st' s (s_shut_down k) -> rest_same st st' -> move st [] st'
| MSocket nb out inn st' : set1 st st' (ss_next st) (fresh nb out inn) -> ss_seq st' = ss_seq st -> ss_next st' = ss_next st + 1 ->
    (forall w, ss_busy st' w = ss_busy st w) -> move st [] st'
| MLeft w s k n d r st' : ss_busy st w = true -> ss_sock st s = Some k -> via k w -> s_out k = (n, d) :: r -> turn disc st w n ->
    set1 st st' s (s_set_out k r) -> rest_same st st' -> move st [LLeft w n s d] st'
| MPut s k w d now st' : owner pub st w (snd (d_to d)) s -> ss_sock st s = Some k -> ~ in_full k ->
    set1 st st' s (s_set_in k (s_in k ++ [(d, now)])) -> rest_same st st' -> move st [LPut s d] st'
| MIdle w st' : (forall s k, ss_sock st s = Some k -> via k w -> s_out k = []) -> (forall x, ss_sock st' x = ss_sock st x) ->
    ss_seq st' = ss_seq st -> ss_next st' = ss_next st -> (forall x, ss_busy st' x = if which_eqb x w then false else ss_busy st x) -> move st [] st'.
Inductive moves : sstate -> list label -> sstate -> Prop :=
| MNil st : moves st [] st
| MCons st l st1 l2 st2 : move st l st1 -> moves st1 l2 st2 -> moves st (l ++ l2) st2.

Lemma moves_one st l st' : move st l st' -> moves st l st'.
Proof. intros M. rewrite <- (app_nil_r l). econstructor; [exact M|constructor]. Qed.
Lemma moves_app st l st1 l2 st2 : moves st l st1 -> moves st1 l2 st2 -> moves st (l ++ l2) st2.
Proof. induction 1; intros M; [exact M|]. rewrite <- app_assoc. econstructor; eauto. Qed.
Lemma rest_refl st s k : rest_same st (upd st s k).
Proof. split; [reflexivity|]. split; reflexivity. Qed.
Lemma set1_upd st s k : set1 st (upd st s k) s k.
Proof. intros x. reflexivity. Qed.
Lemma set1_again st s k k' : set1 (upd st s k) (upd st s k') s k'.
Proof. intros x. cbn. destruct (x =? s); reflexivity. Qed.

Lemma received_moves st w d now l st' : received pub st w d now l st' -> moves st l st'.
Proof.
  intros R. destruct R.
  - apply moves_one, MNote. intros x [<- |[]]. exact I.
  - apply moves_one, MNote. intros x [<- |[]]. exact I.
  - apply moves_one, MNote. intros x [<- |[]]. exact I.
  - apply moves_one. eapply MPut; [eassumption|eassumption|assumption|apply set1_upd|apply rest_refl].
Qed.
Lemma routed_moves st d now l st' : routed pub known st d now l st' -> moves st l st'.
Proof.
  intros R. destruct R; try (eapply received_moves; eassumption); apply moves_one, MNote; intros x [<- |[]]; exact I.
Qed.
Lemma binds_moves st s k ip port b : ss_sock st s = Some k -> s_open k = true -> s_bound k = None -> binds pub st (ip, port) (inl b) ->
  (P -> loopback ip -> ip = LOCALHOST) -> moves st [] (upd st s (s_set_bound k (Some b))).
Proof.
  intros S O B BD PL. apply moves_one. assert (X : fst b = ip /\ local_ip pub ip /\ unused pub st ip (snd b)) by (inversion BD; subst; auto). destruct X as (E & L & U). rewrite <- E in *.
  eapply (MBind st s k b); try eassumption; [apply set1_upd|apply rest_refl].
Qed.
Lemma binds_ip st ip port b : binds pub st (ip, port) (inl b) -> fst b = ip.
Proof. intros BD. inversion BD; reflexivity. Qed.
Lemma prepared_moves st s k dst ip k' : ss_sock st s = Some k -> s_open k = true -> prepared pub st k dst ip (inl k') -> (P -> loopback ip -> ip = LOCALHOST) ->
  exists st1, moves st [] st1 /\ ss_sock st1 s = Some k' /\ s_open k' = true /\ s_out k' = s_out k /\ s_in k' = s_in k /\ rest_same st st1 /\
    (forall x, x <> s -> ss_sock st1 x = ss_sock st x) /\
    exists b, s_bound k' = Some b /\ (reaches b dst \/ fst b = ip).
Proof.
  intros S O PR PL. inversion PR; subst.
  - exists st. split; [constructor|]. split; [exact S|]. split; [exact O|]. split; [reflexivity|]. split; [reflexivity|]. split; [split; [reflexivity|]; split; reflexivity|]. split; [reflexivity|]. eauto.
  - exists (upd st s (s_set_bound k (Some b))). split; [eapply binds_moves; eassumption|]. split; [cbn; rewrite Z.eqb_refl; reflexivity|]. split; [exact O|]. split; [reflexivity|]. split; [reflexivity|].
    split; [apply rest_refl|]. split; [intros x NE; cbn; destruct (Z.eqb_spec x s); [contradiction|reflexivity]|]. exists b. split; [reflexivity|]. right. eapply binds_ip. eassumption.
Qed.
Lemma set1_off st st1 s k' : (forall x, x <> s -> ss_sock st1 x = ss_sock st x) -> set1 st1 (upd st s k') s k'.
Proof. intros H x. cbn. destruct (Z.eqb_spec x s); [reflexivity|]. symmetry. now apply H. Qed.

Ltac quiet := eapply moves_one, MQuiet; [eassumption|assumption| | | | | |apply set1_upd|apply rest_refl]; [reflexivity|reflexivity|reflexivity|left; reflexivity|].
Lemma syscall_moves st s k o r l st' : ss_sock st s = Some k -> s_open k = true -> (P -> plain o) -> syscall pub known st s k o r l st' -> moves st l st'.
Proof.
  intros S O PL C. destruct C; try apply MNil.
  - destruct a as [ip port]. eapply binds_moves; eauto.
  - assert (PP : P -> loopback (if ip' =? LOCALHOST then LOCALHOST else pub) -> (if ip' =? LOCALHOST then LOCALHOST else pub) = LOCALHOST).
    { destruct (ip' =? LOCALHOST); [reflexivity|]. intros _ X. destruct PUB as [_ Y]. contradiction. }
    destruct (prepared_moves st s k _ _ k' S O H1 PP) as (st1 & M & S1 & O1 & E1 & E2 & RS & OFF & b & B & _).
    change (@nil label) with (@nil label ++ []). eapply moves_app; [exact M|]. apply moves_one. eapply MQuiet; [exact S1|exact O1| | | | | |apply set1_off; assumption|]; [reflexivity|reflexivity|reflexivity|right; congruence|left; split; reflexivity|].
    destruct RS as (R1 & R2 & R3). split; [cbn; congruence|]. split; [cbn; congruence|]. intros w. rewrite R3. reflexivity.
  - assert (PP : P -> loopback 0 -> 0 = LOCALHOST) by (unfold loopback; lia).
    destruct (prepared_moves st s k _ _ k' S O H3 PP) as (st1 & M & S1 & O1 & E1 & E2 & RS & OFF & b & B & _).
    change (@nil label) with (@nil label ++ []). eapply moves_app; [exact M|]. apply moves_one. eapply MQuiet; [exact S1|exact O1| | | | | |apply set1_off; assumption|]; [reflexivity|reflexivity|reflexivity|left; reflexivity|left; split; reflexivity|].
    destruct RS as (R1 & R2 & R3). split; [cbn; congruence|]. split; [cbn; congruence|]. intros w. rewrite R3. reflexivity.
  - assert (PP : P -> loopback 0 -> 0 = LOCALHOST) by (unfold loopback; lia).
    destruct (prepared_moves st s k _ _ k' S O H3 PP) as (st1 & M & S1 & O1 & E1 & E2 & RS & OFF & b & B & _).
    change (@nil label) with (@nil label ++ []). eapply moves_app; [exact M|]. apply moves_one. eapply MQuiet; [exact S1|exact O1| | | | | |apply set1_off; assumption|]; [reflexivity|reflexivity|reflexivity|left; reflexivity|left; split; reflexivity|].
    destruct RS as (R1 & R2 & R3). split; [cbn; congruence|]. split; [cbn; congruence|]. intros w. rewrite R3. reflexivity.
  - assert (PP : P -> loopback 0 -> 0 = LOCALHOST) by (unfold loopback; lia).
    destruct (prepared_moves st s k _ _ k' S O H3 PP) as (st1' & M & S1 & O1 & E1 & E2 & (R1 & R2 & R3) & OFF & b' & B & RE).
    rewrite H6 in B. injection B as <-. assert (RE2 : reaches b dst) by (destruct RE as [RE|RE]; [exact RE|left; exact RE]).
    change [LSent (ss_seq st) s d] with ([] ++ [LSent (ss_seq st) s d]). eapply moves_app; [exact M|]. apply moves_one. rewrite <- R1. unfold d. eapply MSend with (k := k'); try eassumption.
    + intros y. unfold st1. cbn. rewrite R1. destruct (Z.eqb_spec y s); [reflexivity|]. symmetry. now apply OFF.
    + cbn. congruence.
    + cbn. congruence.
    + intros w. cbn. rewrite R3. reflexivity.
  - quiet. left. split; reflexivity.
  - quiet. right. exists d, t. split; [reflexivity|assumption].
  - quiet. right. exists d, t. split; [reflexivity|assumption].
  - quiet. left. split; reflexivity.
  - quiet. left. split; reflexivity.
  - quiet. left. split; reflexivity.
  - quiet. left. split; reflexivity.
  - apply moves_one. eapply MClose; [eassumption|apply set1_upd|apply rest_refl].
Qed.
Lemma ustep_moves st o r l st' : ustep pub known disc st o r l st' -> (P -> plain o) -> moves st l st'.
Proof.
  intros U PL. destruct U.
  - apply moves_one. eapply MSocket; [intros x; reflexivity|reflexivity|reflexivity|reflexivity].
  - eapply syscall_moves; eassumption.
  - constructor.
  - constructor.
  - apply moves_one. eapply MIdle; [eassumption|reflexivity|reflexivity|reflexivity|]. intros x. cbn. reflexivity.
  - change (LLeft w n s d :: l) with ([LLeft w n s d] ++ l). econstructor; [|eapply routed_moves; eassumption].
    eapply MLeft; [eassumption|eassumption|eassumption|eassumption|eassumption|apply set1_upd|apply rest_refl].
  - eapply routed_moves. eassumption.
Qed.
Lemma urun_moves st ops ls st' : urun pub known disc st ops ls st' -> (P -> Forall plain ops) -> moves st (labels ls) st'.
Proof.
  induction 1 as [st|st st1 st2 o r l ops rs S R IH]; intros PL; [constructor|]. unfold labels. cbn [map snd concat].
  eapply moves_app; [eapply ustep_moves; [exact S|]|apply IH]; intros p; specialize (PL p); inversion PL; assumption.
Qed.

(* ------------------------------------------------------------------ invariants *)

Record sinv (st : sstate) : Prop := {
  si_next : 0 <= ss_next st;
  si_id : forall s k, ss_sock st s = Some k -> 0 <= s < ss_next st;
  si_none : forall s k, ss_sock st s = Some k -> s_bound k = None -> s_peer k = None /\ s_out k = [];
  si_local : forall s k b, ss_sock st s = Some k -> s_bound k = Some b -> local_ip pub (fst b) /\ (P -> loopback (fst b) -> fst b = LOCALHOST);
  si_owner : forall w p s s', owner pub st w p s -> owner pub st w p s' -> s = s';
  si_out : forall s k, ss_sock st s = Some k -> StronglySorted (fun a b => fst a < fst b) (s_out k) /\ Forall (fun x => 0 <= fst x < ss_seq st) (s_out k);
  si_src : forall s k n d, ss_sock st s = Some k -> In (n, d) (s_out k) ->
    exists b, s_bound k = Some b /\ d_from d = source pub b (d_to d) /\ reaches b (d_to d) /\ blen (d_data d) <= 65507;
  si_seq : 0 <= ss_seq st;
  si_uniq : forall s s' k k' n d d', ss_sock st s = Some k -> ss_sock st s' = Some k' -> In (n, d) (s_out k) -> In (n, d') (s_out k') -> s = s';
  si_busy : P -> forall s k w, ss_sock st s = Some k -> via k w -> s_out k <> [] -> ss_busy st w = true }.

Lemma empty_inv : sinv empty_host.
Proof. constructor; cbn; try lia; try discriminate. intros w p s s' (k & ip & X & _). discriminate. Qed.

Lemma owner_set1 st st' s k k' w p x : set1 st st' s k' -> ss_sock st s = Some k -> (s_open k' = true -> s_open k = true) -> s_bound k' = s_bound k ->
  owner pub st' w p x -> owner pub st w p x.
Proof.
  intros S SK O B (k0 & ip & X & O0 & B0 & C). rewrite S in X. destruct (Z.eqb_spec x s) as [-> |N].
  - injection X as <-. exists k, ip. split; [exact SK|]. split; [auto|]. split; [congruence|exact C].
  - exists k0, ip. auto.
Qed.

(** One socket changes, not becoming open, bound, nor getting more to send. *)
Lemma inv_set1 st st' s k k' : sinv st -> ss_sock st s = Some k -> set1 st st' s k' -> rest_same st st' ->
  (s_open k' = true -> s_open k = true) -> s_bound k' = s_bound k -> (exists a, s_out k = a ++ s_out k') -> (s_peer k' = s_peer k \/ s_bound k <> None) -> sinv st'.
Proof.
  intros [A B C D E F G H HU I] S X (R1 & R2 & R3) O BD (a & AO) PE.
  constructor; rewrite ?R1, ?R2; try assumption.
  - intros x k0 Y. rewrite X in Y. destruct (Z.eqb_spec x s) as [-> |N]; eauto.
  - intros x k0 Y BN. rewrite X in Y. destruct (Z.eqb_spec x s) as [-> |N]; [|eauto]. injection Y as <-. rewrite BD in BN. destruct (C s k S BN) as [C1 C2].
    split; [destruct PE; congruence|]. rewrite C2 in AO. symmetry in AO. apply app_eq_nil in AO. apply AO.
  - intros x k0 b Y BN. rewrite X in Y. destruct (Z.eqb_spec x s) as [-> |N]; [|eauto]. injection Y as <-. apply (D s k b S). congruence.
  - intros w p x y Ox Oy. eapply E; eapply owner_set1; eassumption.
  - intros x k0 Y. rewrite X in Y. destruct (Z.eqb_spec x s) as [-> |N]; [|eauto]. injection Y as <-. destruct (F s k S) as [F1 F2]. rewrite AO in F1, F2. split.
    + clear - F1. induction a as [|y a IH]; [exact F1|]. inversion F1; auto.
    + apply Forall_app in F2. apply F2.
  - intros x k0 n d Y IN. rewrite X in Y. destruct (Z.eqb_spec x s) as [-> |N]; [|eauto]. injection Y as <-. rewrite BD. apply (G s k n d S). rewrite AO. apply in_or_app. auto.
  - intros x y kx ky n d d' Y1 Y2 I1 I2. rewrite X in Y1, Y2.
    assert (SUB : forall z, In z (s_out k') -> In z (s_out k)) by (intros z IZ; rewrite AO; apply in_or_app; auto).
    destruct (Z.eqb_spec x s) as [-> |N1]; destruct (Z.eqb_spec y s) as [-> |N2]; try reflexivity;
      repeat match goal with Q : Some k' = Some _ |- _ => injection Q as <- end; eauto.
  - intros p x k0 w Y V NE. rewrite R3. rewrite X in Y. destruct (Z.eqb_spec x s) as [-> |N]; [|eauto]. injection Y as <-. apply (I p s k w S).
    + destruct V as (b & B1 & B2). exists b. split; [congruence|exact B2].
    + intros Z. rewrite Z in AO. symmetry in AO. apply app_eq_nil in AO. destruct AO. contradiction.
Qed.

Lemma move_inv st l st' : move st l st' -> sinv st -> sinv st'.
Proof.
  intros M V. destruct M.
  - exact V.
  - eapply inv_set1; try eassumption; [intros; congruence|exists []; cbn; congruence].
  - pose proof V as [A B C D E F G HS HU I]. destruct H6 as (R1 & R2 & R3). constructor; rewrite ?R1, ?R2; try assumption.
    + intros x k0 Y. rewrite H5 in Y. destruct (Z.eqb_spec x s) as [-> |N]; eauto.
    + intros x k0 Y BN. rewrite H5 in Y. destruct (Z.eqb_spec x s) as [-> |N]; [|eauto]. injection Y as <-. discriminate.
    + intros x k0 b0 Y BN. rewrite H5 in Y. destruct (Z.eqb_spec x s) as [-> |N]; [|eauto]. injection Y as <-. cbn in BN. injection BN as <-. auto.
    + assert (OW : forall w p x, owner pub st' w p x -> owner pub st w p x /\ x <> s \/ x = s /\ p = snd b /\ covers pub w (fst b)).
      { intros w p x (k0 & ip & Y & O0 & B0 & CV). rewrite H5 in Y. destruct (Z.eqb_spec x s) as [-> |N].
        - injection Y as <-. cbn in B0. injection B0 as ->. right. auto.
        - left. split; [exists k0, ip; auto|exact N]. }
      intros w p x y Ox Oy. destruct (OW _ _ _ Ox) as [[O1 N1]|(-> & -> & C1)]; destruct (OW _ _ _ Oy) as [[O2 N2]|(-> & E2 & C2)].
      * eauto.
      * subst p. destruct (H3 w x C2 O1).
      * destruct (H3 w y C1 O2).
      * reflexivity.
    + intros x k0 Y. rewrite H5 in Y. destruct (Z.eqb_spec x s) as [-> |N]; [|eauto]. injection Y as <-. apply (F s k H).
    + intros x k0 n d Y IN. rewrite H5 in Y. destruct (Z.eqb_spec x s) as [-> |N]; [|eauto]. injection Y as <-. cbn in IN. destruct (C s k H H1) as [_ C2]. rewrite C2 in IN. contradiction.
    + intros x y kx ky n d d' Y1 Y2 I1 I2. rewrite H5 in Y1, Y2.
      destruct (Z.eqb_spec x s) as [-> |N1]; destruct (Z.eqb_spec y s) as [-> |N2]; try reflexivity;
        repeat match goal with Q : Some (s_set_bound _ _) = Some _ |- _ => injection Q as <- end; cbn [s_out s_set_bound] in *; eauto.
    + intros p x k0 w Y VI NE. rewrite R3. rewrite H5 in Y. destruct (Z.eqb_spec x s) as [-> |N]; [|eauto]. injection Y as <-. cbn in NE. destruct (C s k H H1) as [_ C2]. contradiction.
  - pose proof V as [A B C D E F G HS HU I]. constructor; rewrite ?H5, ?H6; try assumption; try lia.
    + intros x k0 Y. rewrite H4 in Y. destruct (Z.eqb_spec x s) as [-> |N]; eauto.
    + intros x k0 Y BN. rewrite H4 in Y. destruct (Z.eqb_spec x s) as [-> |N]; [|eauto]. injection Y as <-. cbn in BN. congruence.
    + intros x k0 b0 Y BN. rewrite H4 in Y. destruct (Z.eqb_spec x s) as [-> |N]; [|eauto]. injection Y as <-. apply (D s k b0 H BN).
    + intros w p x y Ox Oy. eapply E; (eapply owner_set1; [exact H4|exact H| | |eassumption]; [auto|reflexivity]).
    + intros x k0 Y. rewrite H4 in Y. destruct (Z.eqb_spec x s) as [-> |N].
      * injection Y as <-. cbn [s_out s_set_out]. destruct (F s k H) as [F1 F2]. split.
        -- clear - F1 F2. induction (s_out k) as [|y r IH]; cbn; [constructor; constructor|]. inversion F1; inversion F2; subst. constructor; [auto|]. apply Forall_app. split; [assumption|]. constructor; [cbn; lia|constructor].
        -- apply Forall_app. split; [|constructor; [cbn; lia|constructor]]. eapply Forall_impl; [|exact F2]. cbn. intros; lia.
      * destruct (F x k0 Y) as [F1 F2]. split; [exact F1|]. eapply Forall_impl; [|exact F2]. cbn. intros; lia.
    + intros x k0 n d Y IN. rewrite H4 in Y. destruct (Z.eqb_spec x s) as [-> |N]; [|eauto]. injection Y as <-. cbn [s_out s_set_out s_bound] in *. apply in_app_iff in IN as [IN|[IN|[]]]; [eauto|].
      injection IN as _ <-. exists b. cbn. auto.
    + intros x y kx ky n d d' Y1 Y2 I1 I2. rewrite H4 in Y1, Y2.
      destruct (Z.eqb_spec x s) as [-> |N1]; destruct (Z.eqb_spec y s) as [-> |N2]; try reflexivity;
        repeat match goal with Q : Some (s_set_out _ _) = Some _ |- _ => injection Q as <- end; cbn [s_out s_set_out] in *; rewrite ?in_app_iff in *; cbn [In] in *.
      * destruct I1 as [I1|[I1|[]]]; [eauto|]. injection I1 as <- _. destruct (F y ky Y2) as [_ F2]. rewrite Forall_forall in F2. specialize (F2 _ I2). cbn in F2. lia.
      * destruct I2 as [I2|[I2|[]]]; [eauto|]. injection I2 as <- _. destruct (F x kx Y1) as [_ F2]. rewrite Forall_forall in F2. specialize (F2 _ I1). cbn in F2. lia.
      * eauto.
    + intros p x k0 w Y VI NE. rewrite H7. rewrite H4 in Y. destruct (Z.eqb_spec x s) as [-> |N].
      * injection Y as <-. destruct VI as (b0 & B1 & B2). cbn in B1. rewrite H1 in B1. injection B1 as <-. destruct (D s k b H H1) as [_ D2]. unfold woken.
        destruct (Z.eqb_spec (fst b) LOCALHOST) as [L|L]; destruct w; try reflexivity.
        -- destruct B2. unfold loopback. rewrite L. unfold LOCALHOST. lia.
        -- destruct L. auto.
      * rewrite (I p x k0 w Y VI NE). destruct (which_eqb w (woken b)); reflexivity.
  - eapply inv_set1; try eassumption; try reflexivity; [discriminate|exists []; reflexivity|left; reflexivity].
  - pose proof V as [A B C D E F G HS HU I]. assert (NN : ss_sock st (ss_next st) = None) by (destruct (ss_sock st (ss_next st)) eqn:X; [apply B in X; lia|reflexivity]).
    constructor; rewrite ?H0, ?H1; try assumption; try lia.
    + intros x k0 Y. rewrite H in Y. destruct (Z.eqb_spec x (ss_next st)) as [-> |N]; [lia|]. specialize (B x k0 Y). lia.
    + intros x k0 Y BN. rewrite H in Y. destruct (Z.eqb_spec x (ss_next st)) as [-> |N]; [|eauto]. injection Y as <-. auto.
    + intros x k0 b0 Y BN. rewrite H in Y. destruct (Z.eqb_spec x (ss_next st)) as [-> |N]; [|eauto]. injection Y as <-. discriminate.
    + assert (OW : forall w p x, owner pub st' w p x -> owner pub st w p x).
      { intros w p x (k0 & ip & Y & Q). rewrite H in Y. destruct (Z.eqb_spec x (ss_next st)) as [-> |N]; [injection Y as <-; destruct Q as (_ & Q & _); discriminate|]. exists k0, ip. auto. }
      eauto.
    + intros x k0 Y. rewrite H in Y. destruct (Z.eqb_spec x (ss_next st)) as [-> |N]; [|eauto]. injection Y as <-. split; constructor.
    + intros x k0 n d Y IN. rewrite H in Y. destruct (Z.eqb_spec x (ss_next st)) as [-> |N]; [|eauto]. injection Y as <-. contradiction.
    + intros x y kx ky n d d' Y1 Y2 I1 I2. rewrite H in Y1, Y2.
      destruct (Z.eqb_spec x (ss_next st)) as [-> |N1]; destruct (Z.eqb_spec y (ss_next st)) as [-> |N2]; try reflexivity;
        repeat match goal with Q : Some (fresh _ _ _) = Some _ |- _ => injection Q as <- end; try contradiction; eauto.
    + intros p x k0 w Y VI NE. rewrite H2. rewrite H in Y. destruct (Z.eqb_spec x (ss_next st)) as [-> |N]; [|eauto]. injection Y as <-. destruct NE. reflexivity.
  - eapply inv_set1; try eassumption; try reflexivity; [auto|exists [(n, d)]; cbn; congruence|left; reflexivity].
  - eapply inv_set1; try eassumption; try reflexivity; [auto|exists []; reflexivity|left; reflexivity].
  - pose proof V as [A B C D E F G HS HU I]. constructor; rewrite ?H1, ?H2; try assumption; try (intros x k0; rewrite H0; eauto).
    + intros w0 p x y (k1 & i1 & Y1 & Q1) (k2 & i2 & Y2 & Q2). rewrite H0 in Y1, Y2. apply (E w0 p x y); [exists k1, i1; auto|exists k2, i2; auto].
    + intros kx ky n d d' Y1 Y2. rewrite H0 in Y2. eauto.
    + intros k1 w0 Y VI NE. rewrite H3. destruct w, w0; cbn; try (eapply I; eassumption); destruct NE; eapply H; eassumption.
Qed.
Lemma moves_inv st l st' : moves st l st' -> sinv st -> sinv st'.
Proof. induction 1; eauto using move_inv. Qed.

(* ------------------------------------------------------------------ mailboxes are queues *)

Lemma notes_none {A} (f : label -> list A) l : (forall x, In x l -> match x with LDrop _ | LWire _ => True | _ => False end) ->
  (forall d, f (LDrop d) = []) -> (forall d, f (LWire d) = []) -> flat_map f l = [].
Proof.
  intros H A1 A2. induction l as [|x l IH]; [reflexivity|]. cbn. rewrite IH by (intros y Y; apply H; now right). specialize (H x (or_introl eq_refl)). destruct x; try contradiction; rewrite ?A1, ?A2; reflexivity.
Qed.
Lemma move_queues st l st' s : move st l st' -> sinv st ->
  inbox st s ++ puts s l = takes s l ++ inbox st' s /\ outbox st s ++ sents s l = lefts s l ++ outbox st' s.
Proof.
  intros M V. destruct M; unfold inbox, outbox.
  - unfold puts, takes, sents, lefts. rewrite !notes_none by auto. rewrite !app_nil_r. auto.
  - rewrite H6. rewrite (Z.eqb_sym s s0). destruct (Z.eqb_spec s0 s) as [-> |N].
    + rewrite H. destruct H5 as [[-> ->]|(d & t & -> & E)]; cbn; rewrite ?app_nil_r, ?Z.eqb_refl.
      * split; congruence.
      * rewrite E. cbn. split; congruence.
    + destruct H5 as [[-> _]|(d & t & -> & _)]; cbn; rewrite ?app_nil_r; [auto|]. destruct (Z.eqb_spec s0 s); [contradiction|]. auto.
  - rewrite H5. rewrite (Z.eqb_sym s s0). destruct (Z.eqb_spec s0 s) as [-> |N]; cbn; rewrite !app_nil_r; [rewrite H|]; auto.
  - rewrite H4. rewrite (Z.eqb_sym s s0). cbn [puts takes sents lefts flat_map]. destruct (Z.eqb_spec s0 s) as [-> |N]; cbn [app]; rewrite !app_nil_r; [rewrite H|]; auto.
  - rewrite H0. rewrite (Z.eqb_sym s s0). destruct (Z.eqb_spec s0 s) as [-> |N]; cbn; rewrite !app_nil_r; [rewrite H|]; auto.
  - rewrite H. destruct (Z.eqb_spec s (ss_next st)) as [-> |N]; cbn; rewrite !app_nil_r; auto.
    destruct (ss_sock st (ss_next st)) eqn:X; [apply (si_id _ V) in X; lia|auto].
  - rewrite H4. rewrite (Z.eqb_sym s s0). cbn [puts takes sents lefts flat_map]. destruct (Z.eqb_spec s0 s) as [-> |N]; cbn [app]; rewrite !app_nil_r; [rewrite H0|]; auto.
  - rewrite H2. rewrite (Z.eqb_sym s s0). cbn [puts takes sents lefts flat_map]. destruct (Z.eqb_spec s0 s) as [-> |N]; cbn [app]; rewrite !app_nil_r; [rewrite H0|]; auto.
    cbn [s_in s_set_in s_out]. rewrite map_app. auto.
  - rewrite H0. cbn. rewrite !app_nil_r. auto.
Qed.
Lemma moves_queues st l st' s : moves st l st' -> sinv st ->
  inbox st s ++ puts s l = takes s l ++ inbox st' s /\ outbox st s ++ sents s l = lefts s l ++ outbox st' s.
Proof.
  induction 1 as [st|st l st1 l2 st2 M MS IH]; intros V; [cbn; rewrite !app_nil_r; auto|].
  destruct (move_queues st l st1 s M V) as [A B]. destruct (IH (move_inv _ _ _ M V)) as [A2 B2].
  unfold puts, takes, sents, lefts in *. rewrite !flat_map_app. split.
  - rewrite app_assoc, A, <- !app_assoc, A2. reflexivity.
  - rewrite app_assoc, B, <- !app_assoc, B2. reflexivity.
Qed.

(* ------------------------------------------------------------------ closed sockets; addresses stay *)
Lemma move_closed st l st' s k : move st l st' -> sinv st -> ss_sock st s = Some k -> s_open k = false ->
  exists k', ss_sock st' s = Some k' /\ s_open k' = false /\ s_in k' = s_in k /\ puts s l = [] /\ takes s l = [] /\ sents s l = [].
Proof.
  intros M V SK O. destruct M.
  - exists k. unfold puts, takes, sents. rewrite !notes_none by auto. auto 8.
  - assert (N : s0 <> s) by congruence. exists k. rewrite H6. destruct (Z.eqb_spec s s0); [congruence|].
    destruct H5 as [[-> _]|(d & t & -> & _)]; cbn; [auto 8|]. destruct (Z.eqb_spec s0 s); [contradiction|auto 8].
  - assert (N : s0 <> s) by congruence. exists k. rewrite H5. destruct (Z.eqb_spec s s0); [congruence|]. auto 8.
  - assert (N : s0 <> s) by congruence. exists k. rewrite H4. destruct (Z.eqb_spec s s0); [congruence|]. cbn. destruct (Z.eqb_spec s0 s); [contradiction|auto 8].
  - rewrite H0. destruct (Z.eqb_spec s s0) as [-> |N]; [|eauto 8]. rewrite H in SK. injection SK as ->. eexists. split; [reflexivity|]. auto 8.
  - rewrite H. destruct (Z.eqb_spec s (ss_next st)) as [-> |N]; [apply (si_id _ V) in SK; lia|]. eauto 8.
  - rewrite H4. destruct (Z.eqb_spec s s0) as [-> |N]; [|eauto 8]. rewrite H0 in SK. injection SK as ->. eexists. split; [reflexivity|]. auto 8.
  - assert (N : s0 <> s). { intros ->. destruct H as (k1 & ip & X & Y & _). congruence. } exists k. rewrite H2. destruct (Z.eqb_spec s s0); [congruence|]. cbn. destruct (Z.eqb_spec s0 s); [contradiction|auto 8].
  - exists k. rewrite H0. auto 8.
Qed.
Lemma moves_closed st l st' s k : moves st l st' -> sinv st -> ss_sock st s = Some k -> s_open k = false ->
  exists k', ss_sock st' s = Some k' /\ s_open k' = false /\ s_in k' = s_in k /\ puts s l = [] /\ takes s l = [] /\ sents s l = [].
Proof.
  intros M. revert k. induction M as [st|st l st1 l2 st2 M MS IH]; intros k V S O; [exists k; auto 8|].
  destruct (move_closed _ _ _ _ _ M V S O) as (k1 & S1 & O1 & I1 & A & B & C). destruct (IH k1 (move_inv _ _ _ M V) S1 O1) as (k2 & S2 & O2 & I2 & A2 & B2 & C2).
  exists k2. split; [exact S2|]. split; [exact O2|]. split; [congruence|]. unfold puts, takes, sents in *. rewrite !flat_map_app, A, A2, B, B2, C, C2. auto.
Qed.
Lemma move_bound st l st' s k b : move st l st' -> sinv st -> ss_sock st s = Some k -> s_bound k = Some b -> exists k', ss_sock st' s = Some k' /\ s_bound k' = Some b.
Proof.
  intros M V S B. destruct M.
  - eauto.
  - rewrite H6. destruct (Z.eqb_spec s s0) as [-> |N]; [|eauto]. eexists. split; [reflexivity|]. congruence.
  - rewrite H5. destruct (Z.eqb_spec s s0) as [-> |N]; [congruence|eauto].
  - rewrite H4. destruct (Z.eqb_spec s s0) as [-> |N]; [|eauto]. eexists. split; [reflexivity|]. cbn. congruence.
  - rewrite H0. destruct (Z.eqb_spec s s0) as [-> |N]; [|eauto]. eexists. split; [reflexivity|]. cbn. congruence.
  - rewrite H. destruct (Z.eqb_spec s (ss_next st)) as [-> |N]; [|eauto]. apply (si_id _ V) in S. lia.
  - rewrite H4. destruct (Z.eqb_spec s s0) as [-> |N]; [|eauto]. eexists. split; [reflexivity|]. cbn. congruence.
  - rewrite H2. destruct (Z.eqb_spec s s0) as [-> |N]; [|eauto]. eexists. split; [reflexivity|]. cbn. congruence.
  - rewrite H0. eauto.
Qed.
Lemma moves_bound st l st' s k b : moves st l st' -> sinv st -> ss_sock st s = Some k -> s_bound k = Some b -> exists k', ss_sock st' s = Some k' /\ s_bound k' = Some b.
Proof.
  intros M. revert k. induction M as [st|st l st1 l2 st2 M MS IH]; intros k V S B; [eauto|].
  destruct (move_bound _ _ _ _ _ _ M V S B) as (k1 & S1 & B1). exact (IH k1 (move_inv _ _ _ M V) S1 B1).
Qed.
Lemma moves_sent st l st' n s d : moves st l st' -> sinv st -> In (LSent n s d) l ->
  exists k b, ss_sock st' s = Some k /\ s_bound k = Some b /\ d_from d = source pub b (d_to d) /\ reaches b (d_to d).
Proof.
  induction 1 as [st|st l st1 l2 st2 M MS IH]; intros V I; [contradiction|]. apply in_app_iff in I as [I|I]; [|apply IH; [eapply move_inv; eassumption|exact I]].
  assert (X : exists k b, ss_sock st1 s = Some k /\ s_bound k = Some b /\ d_from d = source pub b (d_to d) /\ reaches b (d_to d)).
  { pose proof M as M'. destruct M; try contradiction.
    - specialize (H _ I). contradiction.
    - destruct H5 as [[-> _]|(d0 & t & -> & _)]; [contradiction|]. destruct I as [I|[]]. discriminate.
    - destruct I as [I|[]]. injection I as <- <- <-. rewrite H4, Z.eqb_refl. eexists. exists b. split; [reflexivity|]. cbn. auto.
    - destruct I as [I|[]]. discriminate.
    - destruct I as [I|[]]. discriminate. }
  destruct X as (k & b & S & B & Q). destruct (moves_bound _ _ _ _ _ _ MS (move_inv _ _ _ M V) S B) as (k2 & S2 & B2). eauto 8.
Qed.
(** The source of a datagram is an address of the socket that sent it. *)
Lemma source_owner st s k b dst : P -> sinv st -> ss_sock st s = Some k -> s_open k = true -> s_bound k = Some b -> reaches b dst ->
  (fst (source pub b dst) = LOCALHOST /\ owner pub st Lo (snd (source pub b dst)) s) \/ (fst (source pub b dst) = pub /\ owner pub st Inet (snd (source pub b dst)) s).
Proof.
  intros p V S O B RE. destruct (si_local _ V s k b S B) as [[w C] PL]. specialize (PL p). unfold source. destruct (Z.eqb_spec (fst b) 0) as [Z|NZ].
  - destruct (Z.eqb_spec (fst dst) LOCALHOST); cbn [fst snd]; [left|right]; (split; [reflexivity|]); exists k, 0; (split; [exact S|split; [exact O|split; [rewrite B, <- Z; destruct b; reflexivity|now left]]]).
  - destruct C as [C|C]; [contradiction|]. destruct w.
    + left. split; [auto|]. exists k, (fst b). split; [exact S|]. split; [exact O|]. split; [destruct b; exact B|right; exact C].
    + right. split; [apply C|]. exists k, (fst b). split; [exact S|]. split; [exact O|]. split; [destruct b; exact B|right; exact C].
Qed.
(** Nothing is ever waiting to go to another host under a source that is not the host's address. *)
Lemma out_public st s k n d : P -> sinv st -> ss_sock st s = Some k -> In (n, d) (s_out k) -> fst (d_to d) <> LOCALHOST -> fst (d_from d) = pub.
Proof.
  intros p V S I NL. destruct (si_src _ V s k n d S I) as (b & B & -> & RE & _). destruct (si_local _ V s k b S B) as [[w C] PL]. specialize (PL p).
  unfold source. destruct (Z.eqb_spec (fst b) 0) as [Z|NZ].
  - destruct (Z.eqb_spec (fst (d_to d)) LOCALHOST); [contradiction|reflexivity].
  - destruct C as [C|C]; [contradiction|]. destruct w; [|apply C]. specialize (PL C). destruct RE as [RE|RE]; [contradiction|]. destruct NL. now apply RE.
Qed.

(* ------------------------------------------------------------------ the order of leaving *)
Definition pend_gt (st : sstate) (w : which) (c : Z) : Prop :=
  c < ss_seq st /\ forall s k n d, ss_sock st s = Some k -> via k w -> In (n, d) (s_out k) -> c < n.
Lemma which_eqb_iff a b : which_eqb a b = true <-> a = b.
Proof. destruct a, b; cbn; split; congruence. Qed.
Lemma move_order st l st' w c : disc = MinPriority -> move st l st' -> sinv st -> pend_gt st w c ->
  (numbers w l = [] /\ pend_gt st' w c) \/ (exists n, numbers w l = [n] /\ c < n /\ pend_gt st' w n).
Proof.
  intros DM M V [C1 C2]. assert (VS : forall k k', s_bound k' = s_bound k -> via k' w -> via k w) by (intros k k' E (b & B & X); exists b; split; [congruence|exact X]).
  destruct M.
  - left. split; [apply notes_none; auto|]. split; assumption.
  - left. split; [destruct H5 as [[-> _]|(d & t & -> & _)]; reflexivity|]. destruct H7 as (R1 & _). split; [congruence|]. intros x kx n d Y VI IN. rewrite H6 in Y.
    destruct (Z.eqb_spec x s) as [-> |N]; [|eauto]. injection Y as <-. rewrite H3 in IN. eapply C2; [exact H|eapply VS; eassumption|exact IN].
  - left. split; [reflexivity|]. destruct H6 as (R1 & _). split; [congruence|]. intros x kx n d Y VI IN. rewrite H5 in Y.
    destruct (Z.eqb_spec x s) as [-> |N]; [|eauto]. injection Y as <-. cbn in IN. destruct (si_none _ V s k H H1) as [_ E]. rewrite E in IN. contradiction.
  - left. split; [reflexivity|]. split; [lia|]. intros x kx n d Y VI IN. rewrite H4 in Y.
    destruct (Z.eqb_spec x s) as [-> |N]; [|eauto]. injection Y as <-. cbn [s_out s_set_out] in IN. apply in_app_iff in IN as [IN|[IN|[]]]; [|injection IN as <- _; exact C1].
    eapply C2; [exact H|eapply VS; [|exact VI]; reflexivity|exact IN].
  - left. split; [reflexivity|]. destruct H1 as (R1 & _). split; [congruence|]. intros x kx n d Y VI IN. rewrite H0 in Y.
    destruct (Z.eqb_spec x s) as [-> |N]; [|eauto]. injection Y as <-. eapply C2; [exact H|eapply VS; [|exact VI]; reflexivity|exact IN].
  - left. split; [reflexivity|]. split; [congruence|]. intros x kx n d Y VI IN. rewrite H in Y.
    destruct (Z.eqb_spec x (ss_next st)) as [-> |N]; [|eauto]. injection Y as <-. contradiction.
  - destruct H5 as (R1 & _). cbn [numbers flat_map]. destruct (which_eqb w0 w) eqn:WE.
    + apply which_eqb_iff in WE. subst w0. right. exists n. cbn. split; [reflexivity|]. split; [eapply C2; [exact H0|exact H1|rewrite H2; now left]|].
      destruct (si_out _ V s k H0) as [SO FO]. rewrite H2 in SO, FO. split; [inversion FO; cbn in *; lia|]. intros x kx m d0 Y VI IN. rewrite H4 in Y.
      destruct (Z.eqb_spec x s) as [-> |N].
      * injection Y as <-. cbn in IN. inversion SO as [|? ? ? FF]; subst. rewrite Forall_forall in FF. exact (FF _ IN).
      * destruct (s_out kx) as [|[m1 d1] r1] eqn:OX; [contradiction|]. pose proof (H3 DM x kx m1 d1 r1 Y VI OX) as LE.
        assert (NE : n <> m). { intros ->. apply N. eapply (si_uniq _ V x s kx k m); [exact Y|exact H0|rewrite OX; exact IN|rewrite H2; now left]. }
        destruct (si_out _ V x kx Y) as [SX _]. rewrite OX in SX. destruct IN as [IN|IN]; [injection IN as -> ->; lia|]. inversion SX as [|? ? ? FF]; subst. rewrite Forall_forall in FF. specialize (FF _ IN). cbn in FF. lia.
    + left. split; [reflexivity|]. split; [congruence|]. intros x kx m d0 Y VI IN. rewrite H4 in Y. destruct (Z.eqb_spec x s) as [-> |N]; [|eauto]. injection Y as <-.
      eapply C2; [exact H0|eapply VS; [|exact VI]; reflexivity|]. rewrite H2. right. exact IN.
  - left. split; [reflexivity|]. destruct H3 as (R1 & _). split; [congruence|]. intros x kx n d0 Y VI IN. rewrite H2 in Y.
    destruct (Z.eqb_spec x s) as [-> |N]; [|eauto]. injection Y as <-. eapply C2; [exact H0|eapply VS; [|exact VI]; reflexivity|exact IN].
  - left. split; [reflexivity|]. split; [congruence|]. intros x kx n d0 Y. rewrite H0 in Y. eauto.
Qed.
Lemma moves_order st l st' w : disc = MinPriority -> moves st l st' -> forall c, sinv st -> pend_gt st w c ->
  StronglySorted Z.lt (numbers w l) /\ Forall (Z.lt c) (numbers w l).
Proof.
  intros DM. induction 1 as [st|st l st1 l2 st2 M MS IH]; intros c V PG; [split; constructor|]. unfold numbers. rewrite flat_map_app. fold (numbers w l) (numbers w l2).
  destruct (move_order _ _ _ _ _ DM M V PG) as [[-> PG2]|(n & -> & L & PG2)]; destruct (IH _ (move_inv _ _ _ M V) PG2) as [A B]; cbn [app].
  - auto.
  - split; [constructor; assumption|]. constructor; [exact L|]. eapply Forall_impl; [|exact B]. cbn. intros; lia.
Qed.
End Facts.
