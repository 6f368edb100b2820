(** Runs of the model: panics, progress, polling, replies. *)
From Coq Require Import Sorting.Sorted.
From Verif Require Import Base FMap NetqModel NetqSpec NetqProofs IfaceModel IfaceSpec IfaceProofs UdpModel UdpSpec UdpProofs UdpFacts UdpRuns UdpPoll.

Section Host.
Variable pub : Z.
Variable known : Z -> bool.
Variable disc : kind.
Variable debug : bool.
Hypothesis PUB : pub_ok pub.

Lemma run_refines ops h rs : Z.of_nat (length ops) <= U64_MAX -> Forall (op_ok pub) ops -> h_run debug known (h_new disc pub) ops = Some (h, rs) ->
  exists ls st, urun pub known disc empty_host ops ls st /\ Forall2 matches rs ls /\ rel pub disc (Z.of_nat (length ops)) h st.
Proof.
  intros L OK E. pose proof (run_ok pub known disc debug ops 0 (h_new disc pub) empty_host (new_rel pub known disc) ltac:(lia) OK) as X. rewrite E in X. exact X.
Qed.
Lemma not_stuck (P : Prop) st o : P -> sinv pub P st -> known pub = true -> ~ stuck pub known st o.
Proof.
  intros p V K (w & now & s & k & n & d & r & -> & B & S & VI & O & (N1 & N2 & K1 & K2)).
  rewrite (out_public pub P st s k n d p V S) in K2; [congruence|rewrite O; now left|exact N1].
Qed.
Lemma no_panic ops : Z.of_nat (length ops) <= U64_MAX -> Forall (op_ok pub) ops -> Forall plain ops -> known pub = true -> h_run debug known (h_new disc pub) ops <> None.
Proof.
  intros L OK PL K E. pose proof (run_ok pub known disc debug ops 0 (h_new disc pub) empty_host (new_rel pub known disc) ltac:(lia) OK) as X. rewrite E in X.
  destruct X as (a & o & b & ls & st & -> & U & ST). apply Forall_app in PL as [PL _].
  exact (not_stuck True st o I (run_inv pub known disc PUB True _ _ _ U (fun _ => PL)) K ST).
Qed.

(* ------------------------------------------------------------------ progress *)
Lemma drain_from w now m : forall n h st, rel pub disc n h st -> sinv pub True st -> known pub = true -> (pend st <= m)%nat -> n + Z.of_nat m + 2 <= U64_MAX ->
  exists j h' rs st', (j <= m + 1)%nat /\ h_run debug known h (repeat (UForward w now) j) = Some (h', rs) /\ rel pub disc (n + Z.of_nat j) h' st' /\ sinv pub True st' /\ ss_busy st' w = false.
Proof.
  induction m as [|m IH]; intros n h st R V K LE B.
  all: destruct (ss_busy st w) eqn:BW; [|exists 0%nat, h, [], st; split; [lia|]; split; [reflexivity|]; split; [eapply (rel_more pub known disc); [|exact R]; lia|]; auto].
  all: pose proof (step_ok pub known disc debug n h st (UForward w now) R ltac:(lia) I) as X.
  all: destruct (h_step debug known h (UForward w now)) as [[[h1 a] e]|] eqn:E; [|destruct (not_stuck True st _ I V K X)].
  all: destruct X as (l & st1 & U & W & R1); pose proof (ustep_moves pub known disc PUB True _ _ _ _ _ U (fun _ => I)) as M; pose proof (moves_inv pub known disc True _ _ _ M V) as V1.
  all: pose proof (moves_pend pub known disc True _ _ _ M V) as PE; destruct (ustep_nsent pub known disc _ _ _ _ _ U) as [_ NS]; cbn in NS; rewrite NS in PE.
  all: inversion U; subst; try discriminate; try congruence.
  - exists 1%nat, h1, [(UOk, e)], (set_busy st w false). split; [lia|]. split; [cbn [repeat h_run]; rewrite E; reflexivity|]. split; [exact R1|]. split; [exact V1|]. cbn. destruct w; reflexivity.
  - cbn in PE. lia.
  - exists 1%nat, h1, [(UOk, e)], (set_busy st w false). split; [lia|]. split; [cbn [repeat h_run]; rewrite E; reflexivity|]. split; [eapply (rel_more pub known disc); [|exact R1]; lia|]. split; [exact V1|]. cbn. destruct w; reflexivity.
  - cbn [leaving flat_map length app] in PE. destruct (IH (n + 1) h1 st1 R1 V1 K ltac:(lia) ltac:(lia)) as (j & h' & rs & st' & LJ & E' & R' & V' & B').
    exists (S j), h', ((UOk, e) :: rs), st'. split; [lia|]. split; [cbn [repeat h_run]; rewrite E; ob; rewrite E'; reflexivity|]. split; [eapply (rel_more pub known disc); [|exact R']; lia|]. auto.
Qed.
Lemma idle_empty n h st w : rel pub disc n h st -> sinv pub True st -> h_due h w = false -> forall s u, get s (h_socks h) = Some u -> sends_through u w -> mb_msgs (u_send u) = [].
Proof.
  intros R V B s u G VI. rewrite <- (rl_busy _ _ _ _ _ R) in B. destruct (mb_msgs (u_send u)) as [|x r] eqn:M; [reflexivity|]. exfalso.
  pose proof (si_busy _ _ _ V I s (abs u) w (sock_of pub disc n h st s u R G) VI) as X. rewrite X in B; [discriminate|]. cbn. rewrite M. discriminate.
Qed.
Lemma idle_run ops h rs w : Z.of_nat (length ops) <= U64_MAX -> Forall (op_ok pub) ops -> Forall plain ops -> h_run debug known (h_new disc pub) ops = Some (h, rs) ->
  h_due h w = false -> forall s u, get s (h_socks h) = Some u -> sends_through u w -> mb_msgs (u_send u) = [].
Proof.
  intros L OK PL E B. destruct (run_refines ops h rs L OK E) as (ls & st & U & _ & R). eapply idle_empty; [exact R|exact (run_inv pub known disc PUB True _ _ _ U (fun _ => PL))|exact B].
Qed.
Lemma drains ops h rs w now : Z.of_nat (length ops) <= U32_MAX -> Forall (op_ok pub) ops -> Forall plain ops -> known pub = true -> h_run debug known (h_new disc pub) ops = Some (h, rs) ->
  exists j h' rs', (j <= length ops + 1)%nat /\ h_run debug known h (repeat (UForward w now) j) = Some (h', rs') /\ h_due h' w = false /\
    forall s u, get s (h_socks h') = Some u -> sends_through u w -> mb_msgs (u_send u) = [].
Proof.
  intros L OK PL K E. destruct (run_refines ops h rs ltac:(unfold U32_MAX, U64_MAX in *; lia) OK E) as (ls & st & U & _ & R). pose proof (run_inv pub known disc PUB True _ _ _ U (fun _ => PL)) as V.
  pose proof (urun_pend pub known disc PUB True _ _ _ _ U (fun _ => PL) (empty_inv pub known True)) as PE. cbn in PE.
  destruct (drain_from w now (length ops) _ h st R V K PE ltac:(unfold U32_MAX, U64_MAX in *; lia)) as (j & h' & rs' & st' & LJ & E' & R' & V' & B').
  exists j, h', rs'. rewrite (rl_busy _ _ _ _ _ R') in B'. split; [exact LJ|]. split; [exact E'|]. split; [exact B'|]. eapply idle_empty; eassumption.
Qed.

(* ------------------------------------------------------------------ what is read was sent *)
Lemma matches_fst rs ls : Forall2 matches rs ls -> map fst rs = map fst ls.
Proof. induction 1 as [|x y rs ls [E _] F IH]; [reflexivity|]. cbn. congruence. Qed.
Lemma run_app ops1 ops2 : forall h h1 rs1, h_run debug known h ops1 = Some (h1, rs1) -> h_run debug known h (ops1 ++ ops2) = match h_run debug known h1 ops2 with Some (h2, rs2) => Some (h2, rs1 ++ rs2) | None => None end.
Proof.
  induction ops1 as [|o ops1 IH]; intros h h1 rs1 E; cbn [h_run app] in *.
  - injection E as <- <-. destruct (h_run debug known h ops2) as [[h2 rs2]|]; reflexivity.
  - destruct (h_step debug known h o) as [[[h0 a] e]|]; [|discriminate]. ob_in E. destruct (h_run debug known h0 ops1) as [[h3 rs3]|] eqn:E3; [|discriminate]. ob_in E. injection E as <- <-. ob. rewrite (IH _ _ _ E3).
    destruct (h_run debug known h3 ops2) as [[h2 rs2]|]; reflexivity.
Qed.
Lemma run_split ops1 ops2 : forall h h2 rs, h_run debug known h (ops1 ++ ops2) = Some (h2, rs) -> exists h1 rs1 rs2, rs = rs1 ++ rs2 /\ h_run debug known h ops1 = Some (h1, rs1) /\ h_run debug known h1 ops2 = Some (h2, rs2).
Proof.
  induction ops1 as [|o ops1 IH]; intros h h2 rs E; cbn [h_run app] in *; [exists h, [], rs; auto|].
  destruct (h_step debug known h o) as [[[h0 a] e]|]; [|discriminate]. ob_in E. destruct (h_run debug known h0 (ops1 ++ ops2)) as [[h3 rs3]|] eqn:E3; [|discriminate]. ob_in E. injection E as <- <-.
  destruct (IH _ _ _ E3) as (h1 & rs1 & rs2 & -> & E1 & E2). exists h1, ((a, e) :: rs1), rs2. ob. rewrite E1. ob. auto.
Qed.
Lemma read_genuine a s x h rs n got from tr e : Z.of_nat (length a) < U64_MAX -> Forall (op_ok pub) (a ++ [URecv s x]) ->
  h_run debug known (h_new disc pub) (a ++ [URecv s x]) = Some (h, rs ++ [(UMsg n got from tr, e)]) ->
  exists d, from = d_from d /\ got = cut (ra_len x) (d_data d) /\ tr = (ra_len x <? size d) /\
    (In d (arrivals a) \/ exists s' x' rng, In (USend s' x' rng, UNum (size d)) (combine a (map fst rs)) /\ sa_data x' = d_data d /\ (sa_addr x' = Some (Some (d_to d)) \/ sa_addr x' = None)).
Proof.
  intros L OK E. destruct (run_split _ _ _ _ _ E) as (h1 & rs1 & rs2 & RS & E1 & E2). apply Forall_app in OK as [OK1 OK2].
  cbn [h_run] in E2. destruct (h_step debug known h1 (URecv s x)) as [[[h2 r] e2]|] eqn:ST; [|discriminate]. ob_in E2. injection E2 as <- <-.
  apply app_inj_tail in RS as [-> [= <- <-]].
  destruct (run_refines a h1 rs1 ltac:(lia) OK1 E1) as (ls & st & U & M & R).
  pose proof (step_ok pub known disc debug _ h1 st (URecv s x) R ltac:(lia) ltac:(inversion OK2; assumption)) as X. rewrite ST in X. destruct X as (l & st1 & US & _ & _).
  inversion US; subst; try discriminate. assert (IN : exists d t r, s_in k = (d, t) :: r /\ UMsg n got from tr = reading (ra_len x) (match ra_flags x with Some (_, _, t) => t | None => false end) d).
  { injection H as ->. match goal with C : syscall _ _ _ _ _ _ _ _ _ |- _ => inversion C; subst end.
    - unfold wait_or in *. match goal with Q : _ = UMsg _ _ _ _ |- _ => destruct (dw || s_nb k); [discriminate|destruct (s_shr k); discriminate] end.
    - exists d, t, r. split; [assumption|]. match goal with Q : ra_flags x = _ |- _ => rewrite Q end. reflexivity.
    - exists d, t, r. split; [assumption|]. match goal with Q : ra_flags x = _ |- _ => rewrite Q end. reflexivity. }
  destruct IN as (d & t & r & IN & RD). unfold reading in RD. injection RD as -> -> -> ->. exists d. split; [reflexivity|]. split; [reflexivity|]. split; [reflexivity|].
  injection H as ->. destruct (run_queues pub known disc PUB _ _ _ U s0) as [Q _].
  assert (IP : In d (puts s0 (labels ls))). { rewrite Q. apply in_or_app. right. unfold inbox. rewrite H0, IN. now left. }
  assert (IF : In d (fates (labels ls))).
  { unfold puts in IP. apply in_flat_map in IP as (y & IY & QY). destruct y as [?|?|?|z dz|?|?]; try contradiction. destruct (z =? s0); [|contradiction]. destruct QY as [<- |[]]. apply (proj2 (fates_in pub known _ _)). exists (LPut z dz). auto. }
  destruct (run_origin pub known disc PUB _ _ _ d U IF) as [A|(m & s' & A)]; [now left|right].
  destruct (sent_call pub known disc _ _ _ _ _ _ _ U A) as (x' & rng & IC & D1 & D2). exists s', x', rng. rewrite (matches_fst _ _ M). auto.
Qed.

(* ------------------------------------------------------------------ replies *)
Lemma sent_owner ops ls st n s d : urun pub known disc empty_host ops ls st -> Forall plain ops -> In (LSent n s d) (labels ls) ->
  exists k, ss_sock st s = Some k /\ (s_open k = true ->
    fst (d_from d) = LOCALHOST /\ owner pub st Lo (snd (d_from d)) s \/ fst (d_from d) = pub /\ owner pub st Inet (snd (d_from d)) s).
Proof.
  intros U PL I. pose proof (run_inv pub known disc PUB True _ _ _ U (fun _ => PL)) as V.
  pose proof (urun_moves pub known disc PUB True _ _ _ _ U (fun _ => PL)) as M.
  destruct (moves_sent pub known disc True _ _ _ n s d M (empty_inv pub known True) I) as (k & b & S & B & F & RE). exists k. split; [exact S|]. intros O. rewrite F.
  exact (source_owner pub True st s k b (d_to d) Logic.I V S O B RE).
Qed.
Lemma owner_receives n h st w p now s u : rel pub disc n h st -> sinv pub True st -> blen (up_data p) <= U32_MAX -> owner pub st w (snd (up_dst p)) s ->
  get s (h_socks h) = Some u -> peer_ok u (up_src p) -> mb_has_space (u_recv u) = true ->
  exists h' e u', h_receive h w p now = Some (h', e) /\ get s (h_socks h') = Some u' /\ mb_msgs (u_recv u') = mb_msgs (u_recv u) ++ [(up_data p, mkRh (up_src p) (up_dst p) now)].
Proof.
  intros R V SZ OW G PK HS. unfold h_receive. pose proof (target_owner pub disc n h st w (snd (up_dst p)) (up_src p) R) as TO.
  destruct (if_target (ns_get (h_ns h) w) UDP (snd (up_dst p)) (up_src p)) as [s'|]; [|destruct (TO s OW)].
  pose proof (si_owner _ _ _ V w _ _ _ OW TO) as <-. rewrite G. ob. unfold u_push_in.
  replace (match u_peer u with Some a => negb (addr_eqb a (up_src p)) | None => false end) with false.
  2:{ destruct (u_peer u) as [a|] eqn:PE; [|reflexivity]. specialize (PK a PE). subst a. unfold addr_eqb. rewrite !Z.eqb_refl. reflexivity. }
  rewrite HS. cbn [negb]. unfold mb_push. rewrite HS. rewrite assert_true by reflexivity.
  pose proof (rl_wf _ _ _ _ _ R s u G) as W. pose proof (so_rlim _ _ W) as RL. unfold mb_has_space in HS. apply Z.ltb_lt in HS.
  rewrite assert_true by (apply Z.leb_le; unfold U32_MAX, U64_MAX in *; lia). ob. eexists _, _, _. split; [reflexivity|]. cbn [h_put h_socks]. rewrite get_put_same. split; reflexivity.
Qed.
Lemma sender_receives ops ls h st n s d u q now : urun pub known disc empty_host ops ls st -> rel pub disc (Z.of_nat (length ops)) h st -> Forall plain ops ->
  In (LSent n s d) (labels ls) -> get s (h_socks h) = Some u -> b_closed (u_st u) = false -> up_dst q = d_from d -> blen (up_data q) <= U32_MAX -> peer_ok u (up_src q) -> mb_has_space (u_recv u) = true ->
  exists h' e u', h_route known h q now = Some (h', e) /\ get s (h_socks h') = Some u' /\ mb_msgs (u_recv u') = mb_msgs (u_recv u) ++ [(up_data q, mkRh (up_src q) (up_dst q) now)].
Proof.
  intros U R PL IS G CL D SZ PK HS. pose proof (run_inv pub known disc PUB True _ _ _ U (fun _ => PL)) as V.
  destruct (sent_owner _ _ _ _ _ _ U PL IS) as (k & S & OW). pose proof (sock_of pub disc _ _ _ _ _ R G) as S'. rewrite S in S'. injection S' as ->.
  cbn in OW. rewrite CL in OW. unfold h_route. rewrite D, (assoc_ip pub _ _ (rl_assoc _ _ _ _ _ R)). destruct (OW eq_refl) as [[-> OW1]|[-> OW1]].
  - rewrite Z.eqb_refl. rewrite <- D in OW1 |- *. exact (owner_receives _ _ _ _ _ now _ _ R V SZ OW1 G PK HS).
  - destruct (Z.eqb_spec pub LOCALHOST) as [Q|Q]; [destruct PUB as [_ NL]; exfalso; apply NL; red; unfold LOCALHOST in *; lia|]. rewrite Z.eqb_refl. rewrite <- D in OW1 |- *. exact (owner_receives _ _ _ _ _ now _ _ R V SZ OW1 G PK HS).
Qed.
Lemma wires_in rs ls p : Forall2 matches rs ls -> In (EWire p) (concat (map snd rs)) -> In (LWire (payload p)) (labels ls).
Proof.
  intros M. induction M as [|[r e] [r' l] rs ls [_ MM] F IH]; [intros []|]. unfold labels. cbn [map snd concat] in *. intros I. apply in_app_iff in I as [I|I]; apply in_or_app; [left|right; exact (IH I)].
  assert (W : In (payload p) (wires e)). { unfold wires. apply in_flat_map. exists (EWire p). split; [exact I|now left]. }
  rewrite MM in W. unfold wired in W. apply in_flat_map in W as (y & IY & Q). destruct y; try contradiction. destruct Q as [<- |[]]. exact IY.
Qed.
Lemma wire_foreign st ops ls st' d : urun pub known disc st ops ls st' -> In (LWire d) (labels ls) -> fst (d_to d) <> pub.
Proof.
  induction 1 as [st|st st1 st2 o r l ops rs S R IH]; [intros []|]. unfold labels. cbn [map snd concat]. intros I. apply in_app_iff in I as [I|I]; [|exact (IH I)].
  assert (RO : forall st d0 now l0 st', routed pub known st d0 now l0 st' -> In (LWire d) l0 -> fst (d_to d) <> pub).
  { intros ? ? ? ? ? RO. destruct RO as [? ? ? RC|? ? ? RC| |]; try (destruct RC; intros [Q|[]]; discriminate); intros [Q|[]]; [injection Q as <-; assumption|discriminate]. }
  destruct S as [| s k o r l st' NM SK OP C | | | | w now s k n0 d0 r0 l st' BU SK VI OU TU RT | p now l st' RT]; try contradiction.
  - destruct C; try contradiction; destruct I as [Q|I]; try discriminate; contradiction.
  - destruct I as [Q|I]; [discriminate|]. eapply RO; eassumption.
  - eapply RO; eassumption.
Qed.
(** A packet on the network is a datagram a local program sent, and whoever answers it is heard by
    the same socket, if it is still open, listens to them and has room. *)
Lemma wire_reply ops h rs p : Z.of_nat (length ops) <= U64_MAX -> Forall (op_ok pub) ops -> Forall plain ops -> h_run debug known (h_new disc pub) ops = Some (h, rs) ->
  In (EWire p) (concat (map snd rs)) ->
  exists s x rng u, In (USend s x rng, UNum (blen (up_data p))) (combine ops (map fst rs)) /\ sa_data x = up_data p /\ (sa_addr x = Some (Some (up_dst p)) \/ sa_addr x = None) /\
    get s (h_socks h) = Some u /\ forall q now, b_closed (u_st u) = false -> up_dst q = up_src p -> blen (up_data q) <= U32_MAX -> peer_ok u (up_src q) -> mb_has_space (u_recv u) = true ->
      exists h' e u', h_route known h q now = Some (h', e) /\ get s (h_socks h') = Some u' /\ mb_msgs (u_recv u') = mb_msgs (u_recv u) ++ [(up_data q, mkRh (up_src q) (up_dst q) now)].
Proof.
  intros L OK PL E I. destruct (run_refines ops h rs L OK E) as (ls & st & U & M & R). pose proof (wires_in _ _ _ M I) as W.
  assert (IF : In (payload p) (fates (labels ls))). { apply (proj2 (fates_in pub known _ _)). exists (LWire (payload p)). auto. }
  destruct (run_origin pub known disc PUB _ _ _ _ U IF) as [A|(n & s & A)].
  { exfalso. apply (wire_foreign _ _ _ _ _ U W). unfold arrivals in A. apply in_flat_map in A as (o & IO & Q). rewrite Forall_forall in OK. specialize (OK o IO). destruct o; try contradiction. destruct Q as [<- |[]]. exact (proj1 OK). }
  destruct (sent_call pub known disc _ _ _ _ _ _ _ U A) as (x & rng & IC & D1 & D2). destruct (sent_owner _ _ _ _ _ _ U PL A) as (k & S & _).
  pose proof (rl_sock _ _ _ _ _ R s) as RS. rewrite S in RS. destruct (get s (h_socks h)) as [u|] eqn:G; [|discriminate].
  exists s, x, rng, u. rewrite (matches_fst _ _ M). split; [exact IC|]. split; [exact D1|]. split; [exact D2|]. split; [exact G|].
  intros q now CL D SZ PK HS. exact (sender_receives _ _ _ _ _ _ _ _ q now U R PL A G CL D SZ PK HS).
Qed.
(** The same for a datagram received from the same host. *)
Lemma read_reply a s x h rs n got from tr e : Z.of_nat (length a) < U64_MAX -> Forall (op_ok pub) (a ++ [URecv s x]) -> Forall plain a ->
  h_run debug known (h_new disc pub) (a ++ [URecv s x]) = Some (h, rs ++ [(UMsg n got from tr, e)]) ->
  (exists d, In d (arrivals a) /\ d_from d = from) \/
  exists s' u, get s' (h_socks h) = Some u /\ forall q now, b_closed (u_st u) = false -> up_dst q = from -> blen (up_data q) <= U32_MAX -> peer_ok u (up_src q) -> mb_has_space (u_recv u) = true ->
      exists h' e u', h_route known h q now = Some (h', e) /\ get s' (h_socks h') = Some u' /\ mb_msgs (u_recv u') = mb_msgs (u_recv u) ++ [(up_data q, mkRh (up_src q) (up_dst q) now)].
Proof.
  intros L OK PL E. destruct (run_refines (a ++ [URecv s x]) h (rs ++ [(UMsg n got from tr, e)]) ltac:(rewrite app_length; cbn [length]; lia) OK E) as (ls & st & U & M & R).
  assert (PL' : Forall plain (a ++ [URecv s x])) by (apply Forall_app; split; [exact PL|now repeat constructor]).
  destruct (urun_split pub known disc _ _ _ _ _ U) as (l1 & l2 & st1 & -> & U1 & U2). inversion U2 as [|? ? ? ? r l ? rs2 US UN]; subst. inversion UN; subst.
  apply Forall2_app_inv_l in M as (m1 & m2 & M1 & M2 & EQ). inversion M2 as [|? [r' l'] ? m3 [MR _] M3]; subst. inversion M3; subst. apply app_inj_tail in EQ as [-> [= <- <-]]. cbn [fst] in MR. subst r.
  assert (IF : exists d, from = d_from d /\ In d (puts s (labels m1))).
  { inversion US as [|s1 k o r0 l0 st' NM S O C| | | | |]; subst. injection NM as ->. destruct (run_queues pub known disc PUB _ _ _ U1 s1) as [Q _]. unfold inbox in Q. rewrite S in Q.
    inversion C; subst.
    - exfalso. unfold wait_or in *. match goal with Q : _ = UMsg _ _ _ _ |- _ => destruct (dw || s_nb k); [discriminate|destruct (s_shr k); discriminate] end.
    - exists d. split; [reflexivity|]. rewrite Q. match goal with H : s_in k = _ |- _ => rewrite H end. apply in_or_app. right. now left.
    - exists d. split; [reflexivity|]. rewrite Q. match goal with H : s_in k = _ |- _ => rewrite H end. apply in_or_app. right. now left. }
  destruct IF as (d & -> & IP). assert (IF : In d (fates (labels m1))).
  { unfold puts in IP. apply in_flat_map in IP as (y & IY & QY). destruct y as [?|?|?|z dz|?|?]; try contradiction. destruct (z =? s); [|contradiction]. destruct QY as [<- |[]]. apply (proj2 (fates_in pub known _ _)). exists (LPut z dz). auto. }
  destruct (run_origin pub known disc PUB _ _ _ d U1 IF) as [A|(m & s' & A)]; [left; eauto|right].
  assert (A' : In (LSent m s' d) (labels (m1 ++ [(UMsg n got (d_from d) tr, l)]))). { unfold labels. rewrite map_app, concat_app. apply in_or_app. now left. }
  destruct (sent_owner _ _ _ _ _ _ U PL' A') as (k & S & _). pose proof (rl_sock _ _ _ _ _ R s') as RS. rewrite S in RS. destruct (get s' (h_socks h)) as [u|] eqn:G; [|discriminate].
  exists s', u. split; [exact G|]. intros q now CL D SZ PK HS. exact (sender_receives _ _ _ _ _ _ _ _ q now U R PL' A' G CL D SZ PK HS).
Qed.

(* ------------------------------------------------------------------ closing and ports *)
Lemma closed_silent a b h rs s : Z.of_nat (length (a ++ b)) <= U64_MAX -> Forall (op_ok pub) (a ++ b) -> h_run debug known (h_new disc pub) (a ++ b) = Some (h, rs) ->
  exists la lb sta stb, urun pub known disc empty_host a la sta /\ urun pub known disc sta b lb stb /\ Forall2 matches rs (la ++ lb) /\ rel pub disc (Z.of_nat (length (a ++ b))) h stb /\
    forall k, ss_sock sta s = Some k -> s_open k = false -> puts s (labels lb) = [] /\ takes s (labels lb) = [] /\ sents s (labels lb) = [].
Proof.
  intros L OK E. destruct (run_refines _ h rs L OK E) as (ls & st & U & M & R). destruct (urun_split pub known disc _ _ _ _ _ U) as (la & lb & st1 & -> & U1 & U2).
  exists la, lb, st1, st. split; [exact U1|]. split; [exact U2|]. split; [exact M|]. split; [exact R|]. intros k S O.
  pose proof (run_inv pub known disc PUB False _ _ _ U1 ltac:(tauto)) as V. pose proof (urun_moves pub known disc PUB False _ _ _ _ U2 ltac:(tauto)) as MV.
  destruct (moves_closed pub known disc False _ _ _ s k MV V S O) as (k' & _ & _ & _ & A & B & C). auto.
Qed.
Lemma ports_unique ops h rs : Z.of_nat (length ops) <= U64_MAX -> Forall (op_ok pub) ops -> h_run debug known (h_new disc pub) ops = Some (h, rs) ->
  forall s1 s2 u1 u2 ip1 ip2 port w, get s1 (h_socks h) = Some u1 -> get s2 (h_socks h) = Some u2 -> b_closed (u_st u1) = false -> b_closed (u_st u2) = false ->
    u_bound u1 = Some (ip1, port) -> u_bound u2 = Some (ip2, port) -> covers pub w ip1 -> covers pub w ip2 -> s1 = s2.
Proof.
  intros L OK E s1 s2 u1 u2 ip1 ip2 port w G1 G2 C1 C2 B1 B2 V1 V2. destruct (run_refines _ h rs L OK E) as (ls & st & U & M & R).
  pose proof (run_inv pub known disc PUB False _ _ _ U ltac:(tauto)) as V. apply (si_owner _ _ _ V w port).
  - exists (abs u1), ip1. split; [exact (sock_of pub disc _ _ _ _ _ R G1)|]. cbn. rewrite C1. auto.
  - exists (abs u2), ip2. split; [exact (sock_of pub disc _ _ _ _ _ R G2)|]. cbn. rewrite C2. auto.
Qed.

(* ------------------------------------------------------------------ as stated in UdpProps *)
Lemma held_recv n h st s u : rel pub disc n h st -> get s (h_socks h) = Some u -> mb_len (u_recv u) = held (mb_msgs (u_recv u)).
Proof.
  intros R G. rewrite (so_recv _ _ (rl_wf _ _ _ _ _ R s u G)). unfold held, total. f_equal. rewrite !map_map. apply map_ext. intros [m x]. reflexivity.
Qed.
Lemma held_send n h st s u : rel pub disc n h st -> get s (h_socks h) = Some u -> mb_len (u_send u) = held (mb_msgs (u_send u)).
Proof.
  intros R G. rewrite (so_send _ _ (rl_wf _ _ _ _ _ R s u G)). unfold held, total. f_equal. rewrite !map_map. apply map_ext. intros [m x]. reflexivity.
Qed.
End Host.

Lemma uhost_rel pub known disc debug ops h rs : uhost pub known disc debug ops h rs ->
  exists ls st, urun pub known disc empty_host ops ls st /\ Forall2 matches rs ls /\ rel pub disc (Z.of_nat (length ops)) h st.
Proof. intros (PUB & OK & L & E). exact (run_refines pub known disc debug ops h rs L OK E). Qed.
Lemma datagrams_main pub known disc debug ops h rs : uhost pub known disc debug ops h rs ->
  exists ls st, urun pub known disc empty_host ops ls st /\ Forall2 matches rs ls /\
    (forall s, puts s (labels ls) = takes s (labels ls) ++ inbox st s /\ sents s (labels ls) = lefts s (labels ls) ++ outbox st s) /\
    fates (labels ls) = entering ops ls /\
    (forall a b, subseq (conveyed a b ls) (sents a (labels ls))) /\ (forall b, subseq (arrived b ops ls) (arrivals ops)) /\
    (disc = MinPriority -> forall w, StronglySorted Z.lt (numbers w (labels ls))).
Proof.
  intros X. destruct (uhost_rel _ _ _ _ _ _ _ X) as (ls & st & U & M & R). destruct X as (PUB & OK & L & E). exists ls, st. split; [exact U|]. split; [exact M|].
  split; [exact (run_queues pub known disc PUB _ _ _ U)|]. split; [exact (urun_fate pub known disc _ _ _ _ U)|]. split; [exact (run_pair pub known disc PUB _ _ _ U)|].
  split; [intros b; exact (urun_arrived pub known disc _ _ _ _ b U)|]. exact (run_order pub known disc PUB _ _ _ U).
Qed.
Lemma crash_main pub known disc debug ops : pub_ok pub -> Forall (op_ok pub) ops -> Z.of_nat (length ops) <= U64_MAX -> h_run debug known (h_new disc pub) ops = None ->
  exists a b w now ls st s k n d r, ops = a ++ UForward w now :: b /\ urun pub known disc empty_host a ls st /\
    ss_sock st s = Some k /\ via k w /\ s_out k = (n, d) :: r /\ fst (d_to d) <> LOCALHOST /\ fst (d_to d) <> pub /\ known (fst (d_to d)) = true /\ known (fst (d_from d)) = false.
Proof.
  intros PUB OK L E. pose proof (run_ok pub known disc debug ops 0 (h_new disc pub) empty_host (new_rel pub known disc) ltac:(lia) OK) as X. rewrite E in X.
  destruct X as (a & o & b & ls & st & -> & U & (w & now & s & k & n & d & r & -> & B & S & VI & O & (N1 & N2 & K1 & K2))).
  exists a, b, w, now, ls, st, s, k, n, d, r. auto 12.
Qed.
Lemma no_panic_main pub known disc debug ops : pub_ok pub -> Forall (op_ok pub) ops -> Z.of_nat (length ops) <= U64_MAX -> Forall plain ops -> known pub = true -> h_run debug known (h_new disc pub) ops <> None.
Proof. intros PUB OK L PL K. exact (no_panic pub known disc debug PUB ops L OK PL K). Qed.
Lemma genuine_main pub known disc debug a s x h rs n got from tr e : uhost pub known disc debug (a ++ [URecv s x]) h (rs ++ [(UMsg n got from tr, e)]) ->
  exists d, from = d_from d /\ got = cut (ra_len x) (d_data d) /\ tr = (ra_len x <? size d) /\
    (In d (arrivals a) \/ exists s' x' rng, In (USend s' x' rng, UNum (size d)) (combine a (map fst rs)) /\ sa_data x' = d_data d /\ (sa_addr x' = Some (Some (d_to d)) \/ sa_addr x' = None)).
Proof.
  intros (PUB & OK & L & E). eapply read_genuine; [exact PUB| |exact OK|exact E]. rewrite app_length in L. cbn [length] in L. lia.
Qed.
Lemma idle_main pub known disc debug ops h rs w : uhost pub known disc debug ops h rs -> Forall plain ops -> h_due h w = false ->
  forall s u, get s (h_socks h) = Some u -> sends_through u w -> mb_msgs (u_send u) = [].
Proof. intros (PUB & OK & L & E) PL B. exact (idle_run pub known disc debug PUB ops h rs w L OK PL E B). Qed.
Lemma drains_main pub known disc debug ops h rs w now : uhost pub known disc debug ops h rs -> Z.of_nat (length ops) <= U32_MAX -> Forall plain ops -> known pub = true ->
  exists j h' rs', (j <= length ops + 1)%nat /\ h_run debug known h (repeat (UForward w now) j) = Some (h', rs') /\ h_due h' w = false /\
    forall s u, get s (h_socks h') = Some u -> sends_through u w -> mb_msgs (u_send u) = [].
Proof. intros (PUB & OK & L & E) L' PL K. exact (drains pub known disc debug PUB ops h rs w now L' OK PL K E). Qed.
Lemma ports_main pub known disc debug ops h rs : uhost pub known disc debug ops h rs ->
  forall s1 s2 u1 u2 ip1 ip2 port w, get s1 (h_socks h) = Some u1 -> get s2 (h_socks h) = Some u2 -> b_closed (u_st u1) = false -> b_closed (u_st u2) = false ->
    u_bound u1 = Some (ip1, port) -> u_bound u2 = Some (ip2, port) -> covers pub w ip1 -> covers pub w ip2 -> s1 = s2.
Proof. intros (PUB & OK & L & E). exact (ports_unique pub known disc debug PUB ops h rs L OK E). Qed.
Lemma wire_main pub known disc debug ops h rs p : uhost pub known disc debug ops h rs -> Forall plain ops -> In (EWire p) (concat (map snd rs)) ->
  exists s x rng, In (USend s x rng, UNum (blen (up_data p))) (combine ops (map fst rs)) /\ sa_data x = up_data p /\ (sa_addr x = Some (Some (up_dst p)) \/ sa_addr x = None) /\ answers known h s (up_src p).
Proof.
  intros X PL I. destruct (uhost_rel _ _ _ _ _ _ _ X) as (ls & st & U & M & R). destruct X as (PUB & OK & L & E).
  destruct (wire_reply pub known disc debug PUB ops h rs p L OK PL E I) as (s & x & rng & u & A & B & C & G & D). exists s, x, rng. split; [exact A|]. split; [exact B|]. split; [exact C|].
  exists u. split; [exact G|]. intros q now CL Q SZ PK HS. apply D; try assumption. unfold mb_has_space. rewrite (held_recv pub disc _ _ _ _ _ R G). now apply Z.ltb_lt.
Qed.
Lemma reply_main pub known disc debug a s x h rs n got from tr e : uhost pub known disc debug (a ++ [URecv s x]) h (rs ++ [(UMsg n got from tr, e)]) -> Forall plain a ->
  (exists d, In d (arrivals a) /\ d_from d = from) \/ exists s', answers known h s' from.
Proof.
  intros X PL. destruct (uhost_rel _ _ _ _ _ _ _ X) as (ls & st & U & M & R). destruct X as (PUB & OK & L & E).
  destruct (read_reply pub known disc debug PUB a s x h rs n got from tr e) as [A|(s' & u & G & D)]; [rewrite app_length in L; cbn [length] in L; lia|exact OK|exact PL|exact E|now left|right].
  exists s', u. split; [exact G|]. intros q now CL Q SZ PK HS. apply D; try assumption. unfold mb_has_space. rewrite (held_recv pub disc _ _ _ _ _ R G). now apply Z.ltb_lt.
Qed.
Lemma closed_main pub known disc debug a b h rs s : uhost pub known disc debug (a ++ b) h rs ->
  exists la lb sta stb, urun pub known disc empty_host a la sta /\ urun pub known disc sta b lb stb /\ Forall2 matches rs (la ++ lb) /\
    forall k, ss_sock sta s = Some k -> s_open k = false -> puts s (labels lb) = [] /\ takes s (labels lb) = [] /\ sents s (labels lb) = [].
Proof.
  intros (PUB & OK & L & E). destruct (closed_silent pub known disc debug PUB a b h rs s L OK E) as (la & lb & sta & stb & A & B & C & _ & D). exists la, lb, sta, stb. auto.
Qed.

(* ------------------------------------------------------------------ polling *)
Lemma uhost_split pub known disc debug a b h rs : uhost pub known disc debug (a ++ b) h rs ->
  exists h1 ra rb, rs = ra ++ rb /\ uhost pub known disc debug a h1 ra /\ h_run debug known h1 b = Some (h, rb).
Proof.
  intros (PUB & OK & L & E). destruct (run_split known debug _ _ _ _ _ E) as (h1 & ra & rb & -> & E1 & E2). exists h1, ra, rb. split; [reflexivity|]. split; [|exact E2].
  apply Forall_app in OK as [OK _]. rewrite app_length in L. repeat split; try assumption; try apply PUB. lia.
Qed.
Lemma poll_main pub known disc debug ops h rs : uhost pub known disc debug ops h rs -> forall s u, get s (h_socks h) = Some u -> b_closed (u_st u) = false ->
  b_active (u_st u) = true /\ (b_readable (u_st u) = true <-> mb_msgs (u_recv u) <> []) /\
  (Forall (fun o => ~ resizes o) ops -> (b_writable (u_st u) = true <-> held (mb_msgs (u_send u)) < mb_limit (u_send u))).
Proof.
  intros X s u G CL. destruct (uhost_rel _ _ _ _ _ _ _ X) as (ls & st & U & M & R). destruct X as (PUB & OK & L & E).
  pose proof (run_polled (Forall (fun o => ~ resizes o) ops) debug known ops _ _ _ E (fun q => q) (new_polled _ _ _) s u G CL) as (A & B & C). split; [exact A|]. split.
  - rewrite B. unfold mb_is_empty. destruct (mb_msgs (u_recv u)); cbn; split; congruence.
  - intros NR. rewrite (C NR). unfold mb_has_space. rewrite (held_send pub disc _ _ _ _ _ R G). apply Z.ltb_lt.
Qed.
Lemma told_run pub known disc debug a b : forall h1 ra h rb, uhost pub known disc debug a h1 ra -> uhost pub known disc debug (a ++ b) h (ra ++ rb) -> h_run debug known h1 b = Some (h, rb) -> heard h1 h (concat (map snd rb)).
Proof.
  induction b as [|o b IH] using rev_ind; intros h1 ra h rb U1 U2 E.
  - injection E as <- <-. intros s u G. exists u. split; [exact G|]. split; [reflexivity|lia].
  - destruct (run_split known debug _ _ _ _ _ E) as (h2 & r1 & r2 & -> & E1 & E2). rewrite app_assoc in U2.
    destruct (uhost_split _ _ _ _ _ _ _ _ U2) as (h2' & ra' & rb' & EQ & U3 & E3).
    assert (h2' = h2 /\ ra' = ra ++ r1) as [-> ->].
    { destruct U1 as (_ & _ & _ & E0). destruct U3 as (_ & _ & _ & E4). rewrite (run_app known debug a b _ _ _ E0), E1 in E4. injection E4 as <- <-. auto. }
    rewrite map_app, concat_app. eapply heard_trans; [eapply IH; eassumption|].
    cbn [h_run] in E2. destruct (h_step debug known h2 o) as [[[h3 r] e]|] eqn:ST; [|discriminate]. ob_in E2. injection E2 as <- <-. cbn. rewrite app_nil_r.
    destruct (uhost_rel _ _ _ _ _ _ _ U3) as (ls & st & U & M & R). eapply step_heard; [exact (rl_fresh _ _ _ _ _ R)|exact ST].
Qed.
Lemma told_main pub known disc debug a b h1 ra h rb : uhost pub known disc debug a h1 ra -> uhost pub known disc debug (a ++ b) h (ra ++ rb) ->
  forall s u1, get s (h_socks h1) = Some u1 -> exists u, get s (h_socks h) = Some u /\ u_st u = last (map fst (told s (concat (map snd rb)))) (u_st u1) /\
    ((length (mb_msgs (u_recv u1)) < length (mb_msgs (u_recv u)))%nat -> exists b, In (b, true) (told s (concat (map snd rb))) /\ b_readable b = true).
Proof.
  intros U1 U2. pose proof U1 as (_ & _ & _ & E1). pose proof U2 as (_ & _ & _ & E2). rewrite (run_app known debug a b _ _ _ E1) in E2.
  destruct (h_run debug known h1 b) as [[h2 rb']|] eqn:E; [|discriminate]. injection E2 as -> EQ. apply app_inv_head in EQ. subst rb'. exact (told_run _ _ _ _ _ _ _ _ _ _ U1 U2 E).
Qed.
Lemma last_in {A} (l : list A) d : last l d = d \/ In (last l d) l.
Proof. destruct l as [|x l]; [now left|right]. rewrite (app_removelast_last d (l := x :: l)) at 2 by discriminate. apply in_or_app. right. now left. Qed.
Lemma wakes_main pub known disc debug a b h1 ra h rb s u1 u : uhost pub known disc debug a h1 ra -> uhost pub known disc debug (a ++ b) h (ra ++ rb) ->
  get s (h_socks h1) = Some u1 -> get s (h_socks h) = Some u -> b_closed (u_st u1) = false -> b_closed (u_st u) = false ->
  (mb_msgs (u_recv u1) = [] -> mb_msgs (u_recv u) <> [] -> exists n, In n (told s (concat (map snd rb))) /\ b_readable (fst n) = true /\ snd n = true) /\
  (Forall (fun o => ~ resizes o) (a ++ b) -> mb_limit (u_send u1) <= held (mb_msgs (u_send u1)) -> held (mb_msgs (u_send u)) < mb_limit (u_send u) ->
     exists n, In n (told s (concat (map snd rb))) /\ b_writable (fst n) = true).
Proof.
  intros U1 U2 G1 G C1 C. destruct (told_main _ _ _ _ _ _ _ _ _ _ U1 U2 s u1 G1) as (u' & G' & L & GR). rewrite G in G'. injection G' as <-. split.
  - intros M1 M2. destruct GR as (n & I & BR); [rewrite M1; destruct (mb_msgs (u_recv u)); [congruence|cbn; lia]|]. exists (n, true). auto.
  - intros NR F1 F2. destruct (poll_main _ _ _ _ _ _ _ U1 s u1 G1 C1) as (_ & _ & W1). destruct (poll_main _ _ _ _ _ _ _ U2 s u G C) as (_ & _ & W2).
    specialize (W2 NR). apply Forall_app in NR as [NR _]. specialize (W1 NR). apply W2 in F2.
    assert (NW : b_writable (u_st u1) <> true) by (intros Q; apply W1 in Q; lia).
    destruct (last_in (map fst (told s (concat (map snd rb)))) (u_st u1)) as [Q|Q]; rewrite <- L in Q; [congruence|].
    apply in_map_iff in Q as (n & Q & I). exists n. split; [exact I|]. rewrite Q. exact F2.
Qed.

Lemma closes_main pub known disc debug ops h rs s ev : uhost pub known disc debug (ops ++ [UClose s]) h (rs ++ [(UOk, ev)]) ->
  exists u, get s (h_socks h) = Some u /\ u_st u = mkBits false false false true.
Proof.
  intros (PUB & OK & L & E). destruct (run_split known debug _ _ _ _ _ E) as (h1 & ra & rb & EQ & E1 & E2). cbn [h_run] in E2.
  destruct (h_step debug known h1 (UClose s)) as [[[h2 a] e]|] eqn:ST; [|discriminate E2]. ob_in E2. injection E2 as <- <-.
  apply app_inj_tail in EQ as (_ & EQ). injection EQ as <- <-. cbn [h_step] in ST. unfold on_socket in ST.
  destruct (h_open h1 s) as [u|] eqn:G; [|discriminate ST]. unfold u_close in ST. destruct (u_update _ _ _) as [u1 n] eqn:UU. injection ST as <- _.
  exists u1. split; [destruct (u_assoc u) as [[]|]; apply get_put_same|].
  unfold u_update in UU. injection UU as <- _. reflexivity.
Qed.
