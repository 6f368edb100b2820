(** Proofs about the relay. *)
From Verif Require Import Base TimeModel TimeSpec TimeProofs TokenBucketModel TokenBucketSpec TokenBucketProofs RelayModel RelaySpec.
From Coq Require Import Permutation.

(** ** The device *)
Lemma device_app : forall a b l, device l (a ++ b) = match device l a with Some l' => device l' b | None => None end.
Proof.
  induction a as [|e a IH]; intros b l; [reflexivity|]. cbn [app device]. destruct e; auto.
  destruct l as [|x l]; [reflexivity|]. destruct ((rp_id x =? rp_id p) && (rp_len x =? rp_len p) && (rp_dst x =? rp_dst p)); [apply IH|reflexivity].
Qed.
Lemma device_pop p l : device (p :: l) [EPop p] = Some l.
Proof. cbn. rewrite !Z.eqb_refl. reflexivity. Qed.
Lemma device_enter : forall ps l, device l (enter_events ps) = Some (arrive l ps).
Proof. induction ps as [|(n, p) ps IH]; intros l; [reflexivity|]. cbn [enter_events map device fst snd arrive fold_left]. apply IH. Qed.

Lemma pkt_eqb x p : (rp_id x =? rp_id p) && (rp_len x =? rp_len p) && (rp_dst x =? rp_dst p) = true -> x = p.
Proof. destruct x, p; cbn. intros H. f_equal; lia. Qed.

Lemma device_perm : forall tr l l', lossless tr -> device l tr = Some l' -> Permutation (l ++ entered tr) (taken tr ++ l').
Proof.
  induction tr as [|e tr IH]; intros l l' LL D; cbn in D.
  - injection D as <-. cbn. rewrite app_nil_r. reflexivity.
  - assert (LL' : lossless tr) by (intros n I; apply (LL n); right; exact I). destruct e as [n p|n|p|t b p]; cbn [entered taken flat_map]; change (flat_map _ tr) with (entered tr) at 1.
    + specialize (IH _ _ LL' D). change (flat_map (fun e => match e with EPop p => [p] | _ => [] end) tr) with (taken tr). cbn [app].
      rewrite <- IH. rewrite <- (firstn_skipn n l) at 1. rewrite <- !app_assoc. apply Permutation_app_head. cbn. symmetry. apply Permutation_middle.
    + destruct (LL n). left; reflexivity.
    + destruct l as [|x l]; [discriminate|]. destruct (_ && _) eqn:E; [|discriminate]. apply pkt_eqb in E. subst x. cbn. constructor. exact (IH _ _ LL' D).
    + cbn. exact (IH _ _ LL' D).
Qed.

Lemma device_fifo : forall tr l l' m, lossless tr -> (forall n p, In (EEnter n p) tr -> (m <= n)%nat) -> (length l + length (entered tr) <= m)%nat ->
  device l tr = Some l' -> l ++ entered tr = taken tr ++ l'.
Proof.
  induction tr as [|e tr IH]; intros l l' m LL FF LE D; cbn in D.
  - injection D as <-. cbn. rewrite app_nil_r. reflexivity.
  - assert (LL' : lossless tr) by (intros n I; apply (LL n); right; exact I). assert (FF' : forall n p, In (EEnter n p) tr -> (m <= n)%nat) by (intros; eapply FF; right; eauto).
    destruct e as [n p|n|p|t b p]; cbn [entered taken flat_map] in *; change (flat_map (fun e => match e with EEnter _ p => [p] | _ => [] end) tr) with (entered tr) in *; change (flat_map (fun e => match e with EPop p => [p] | _ => [] end) tr) with (taken tr) in *; cbn [app length] in *.
    + pose proof (FF n p (or_introl eq_refl)) as LN. rewrite firstn_all2, skipn_all2 in D by lia.
      assert (LE' : (length (l ++ [p]) + length (entered tr) <= m)%nat) by (rewrite app_length; cbn; lia).
      rewrite <- (IH _ _ m LL' FF' LE' D). rewrite <- app_assoc. reflexivity.
    + destruct (LL n). left; reflexivity.
    + destruct l as [|x l]; [discriminate|]. destruct (_ && _) eqn:E; [|discriminate]. apply pkt_eqb in E. subst x. cbn [app length] in *. f_equal. apply (IH _ _ m); auto. lia.
    + apply (IH _ _ m); auto.
Qed.

(** ** The bucket *)
Lemma times_ok_snoc : forall reqs t0 d t, times_ok t0 reqs -> last_time t0 reqs <= t -> valid_emu t -> is_u64 d -> times_ok t0 (reqs ++ [(d, t)]).
Proof.
  induction reqs as [|(d1, t1) reqs IH]; intros t0 d t T L V U; cbn [app times_ok] in *.
  - cbn in L. auto.
  - destruct T as (A & B & C & D). split; [exact A|]. split; [exact B|]. split; [exact C|]. apply IH; auto.
    replace (last_time t1 reqs) with (last_time t0 ((d1, t1) :: reqs)); auto. unfold last_time. cbn [map snd]. clear. revert t1. induction reqs as [|[x y] r IHr]; intros t1; [reflexivity|]. cbn [map snd] in *. destruct r; [reflexivity|]. cbn [map last] in *. auto.
Qed.
Lemma last_time_snoc t0 reqs d t : last_time t0 (reqs ++ [(d, t)]) = t.
Proof. unfold last_time. rewrite map_app. cbn. apply last_last. Qed.
Lemma tb_run_snoc b reqs d t b1 res b2 r : tb_run b reqs = Some (b1, res) -> tb_conforming_remove b1 d t = Some (b2, r) -> tb_run b (reqs ++ [(d, t)]) = Some (b2, res ++ [r]).
Proof. intros A B. rewrite run_app, A. ob. cbn. rewrite B. reflexivity. Qed.

(** Accepted requests. *)
Fixpoint passed (reqs : list (Z * Z)) (res : list tb_result) : list (Z * Z) :=
  match reqs, res with q :: rq, r :: rs => (if accepted r then [q] else []) ++ passed rq rs | _, _ => [] end.
Lemma passed_snoc : forall reqs res q r, length reqs = length res -> passed (reqs ++ [q]) (res ++ [r]) = passed reqs res ++ if accepted r then [q] else [].
Proof.
  induction reqs as [|a reqs IH]; intros [|x res] q r L; cbn in L; try lia; [cbn; rewrite app_nil_r; reflexivity|].
  cbn [app passed]. rewrite IH by lia. rewrite app_assoc. reflexivity.
Qed.
Lemma tb_run_length : forall reqs b b' res, tb_run b reqs = Some (b', res) -> length res = length reqs.
Proof.
  induction reqs as [|(d, t) reqs IH]; intros b b' res R; cbn in R; [injection R as <- <-; reflexivity|].
  destruct (tb_conforming_remove b d t) as [(b1, x)|]; ob_in R; [|discriminate]. destruct (tb_run b1 reqs) as [(b2, xs)|] eqn:E; ob_in R; [|discriminate]. injection R as <- <-. cbn. f_equal. eauto.
Qed.

Definition inc (bw : Z) : Z := Z.max 1 (bw / 1000).
Definition cap (bw : Z) : Z := inc bw + 1500.

Lemma inc_bounds bw : 0 <= bw <= U64_MAX -> 1 <= inc bw <= 18446744073709552.
Proof. intros B. unfold inc, U64_MAX in *. assert (0 <= bw / 1000 <= 18446744073709552); [|lia]. split; [apply Z.div_pos; lia|]. apply Z.div_le_upper_bound; lia. Qed.
Lemma params bw : 0 <= bw <= U64_MAX -> params_ok (cap bw) (inc bw) 1000000.
Proof. intros B. pose proof (inc_bounds bw B). unfold params_ok, cap, valid_sim, SIM_LIMIT, U64_MAX. lia. Qed.
Lemma fits_ip i d : 1 <= i -> 0 <= d <= 65535 -> wait_fits i 1000000 d.
Proof. intros I D. unfold wait_fits, SIM_LIMIT. assert (d / i <= d) by (apply Z.div_le_upper_bound; nia). nia. Qed.

Record hist (now : Z) (bw : Z) (b : bucket) (acc : list (Z * Z)) : Prop := {
  h_ex : exists b0 reqs res, tb_new (cap bw) (inc bw) 1000000 = Some b0 /\ tb_run b0 reqs = Some (b, res) /\ times_ok START reqs /\ last_time START reqs <= now /\
    (forall d t, In (d, t) reqs -> 0 <= d <= 65535) /\ passed reqs res = acc;
  h_inv : tb_inv (cap bw) (inc bw) 1000000 b;
  h_last : tb_last_refill b <= now }.

Section Relay.
Variables (rate : option Z) (addr : Z).
Hypothesis RATE : forall bw, rate = Some bw -> 0 <= bw <= U64_MAX.

Definition lim_ok (now : Z) (lim : option bucket) (acc : list (Z * Z)) : Prop :=
  match rate, lim with Some bw, Some b => hist now bw b acc | None, None => True | _, _ => False end.

Lemma lim_later now now' lim acc : lim_ok now lim acc -> now <= now' -> lim_ok now' lim acc.
Proof.
  unfold lim_ok. destruct rate, lim; auto. intros [(b0 & reqs & res & A & B & C & D & E & F) I L] LE. constructor; [|exact I|lia].
  exists b0, reqs, res. repeat (split; auto). lia.
Qed.

Definition now_ok (now : Z) : Prop := START <= now <= EMU_LIMIT - 100000000000.

(** A refusal: when the packet may go. *)
Definition blocked_until (lim : option bucket) (p : rpkt) (now d : Z) : Prop :=
  match rate, lim with
  | Some bw, Some b => (rp_len p <= cap bw -> exists b2 bal, tb_conforming_remove b (rp_len p) d = Some (b2, TbOk bal)) /\
      (forall t, now <= t < d -> valid_emu t -> exists b2 w', tb_conforming_remove b (rp_len p) t = Some (b2, TbWait w')) /\
      (cap bw < rp_len p -> forall t, now <= t -> valid_emu t -> exists b2 w', tb_conforming_remove b (rp_len p) t = Some (b2, TbWait w'))
  | _, _ => False
  end.

Lemma admit_ok r p boot now now' acc : lim_ok now (r_limiter r) acc -> now <= now' -> now_ok now' -> ip_packet p -> r_addr r = addr ->
  exists lim wait, admit r p boot now' = Some (r_set_limiter r lim, wait) /\
    match wait with
    | None => lim_ok now' lim (acc ++ metered addr [ESend now' boot p])
    | Some d => lim_ok now' lim acc /\ boot = false /\ addr <> rp_dst p /\ 0 < d <= 65536000000 /\ blocked_until lim p now' (now' + d)
    end.
Proof.
  intros LO LE NO IP AD. unfold admit. cbn [metered flat_map]. rewrite AD. destruct (negb boot && negb (addr =? rp_dst p)) eqn:G.
  - replace (boot || (addr =? rp_dst p)) with false by (destruct boot, (addr =? rp_dst p); cbn in *; congruence).
    unfold lim_ok in LO |- *. unfold blocked_until. destruct rate as [bw|] eqn:RT; destruct (r_limiter r) as [b|] eqn:LI; try (exfalso; exact LO).
    + assert (RB : 0 <= bw <= U64_MAX) by (apply RATE; auto). pose proof (params bw RB) as P. destruct LO as [(b0 & reqs & res & A & B & C & D & E & F) I L].
      pose proof (inc_bounds bw RB) as IB. unfold ip_packet in IP. unfold now_ok in NO.
      assert (V : valid_emu now') by (unfold valid_emu, EMU_LIMIT, START in *; lia).
      assert (U : is_u64 (rp_len p)) by (unfold is_u64, U64_MAX; lia).
      assert (WF : wait_fits (inc bw) 1000000 (rp_len p)) by (apply fits_ip; lia).
      assert (LL : tb_last_refill b <= now') by lia.
      destruct (remove_spec (cap bw) (inc bw) 1000000 b (rp_len p) now' P I V LL U WF) as (b' & I' & K & L1 & T1 & X).
      destruct X as [(C1 & C2 & C3)|(C1 & C2 & n & C3 & C4 & C5)].
      * rewrite C2. ob. exists (Some b'), None. split; [reflexivity|]. cbn [app]. constructor; [|exact I'|lia].
        exists b0, (reqs ++ [(rp_len p, now')]). eexists. split; [exact A|]. split; [eapply tb_run_snoc; eauto|]. split; [apply times_ok_snoc; auto; lia|].
        split; [rewrite last_time_snoc; lia|]. split; [|rewrite passed_snoc by (symmetry; eapply tb_run_length; eauto); rewrite F; reflexivity].
        intros d t IN. apply in_app_or in IN. destruct IN as [IN|[IN|[]]]; [eauto|injection IN as <- <-; lia].
      * assert (WE : exists w, tb_conforming_remove b (rp_len p) now' = Some (b', TbWait w) /\ 0 < w <= 65536000000).
        { eexists. split; [exact C5|]. pose proof (inv_bal _ _ _ _ I') as BB. rewrite C2 in BB. assert (n - 1 < 65535) by (clear - C3 C4 BB IB IP; nia). lia. }
        destruct WE as (w & WE & WB). rewrite WE. ob. exists (Some b'), (Some w). split; [reflexivity|]. cbn [app].
        destruct (wait_exact (cap bw) (inc bw) 1000000 b (rp_len p) now' b' w P I V LL U WF WE) as (W0 & W1 & W2 & W3).
        split; [|split; [destruct boot; [discriminate|reflexivity]|split; [destruct (Z.eqb_spec addr (rp_dst p)); [rewrite andb_false_r in G; discriminate|assumption]|split; [exact WB|]]]].
        -- constructor; [|exact I'|lia]. exists b0, (reqs ++ [(rp_len p, now')]). eexists. split; [exact A|]. split; [eapply tb_run_snoc; eauto|]. split; [apply times_ok_snoc; auto; lia|].
           split; [rewrite last_time_snoc; lia|]. split; [|rewrite passed_snoc by (symmetry; eapply tb_run_length; eauto); rewrite F; cbn; apply app_nil_r].
           intros d t IN. apply in_app_or in IN. destruct IN as [IN|[IN|[]]]; [eauto|injection IN as <- <-; lia].
        -- split; [intros LC; apply W2; [exact LC|unfold valid_emu, EMU_LIMIT, START in *; lia]|]. split; [|exact W3].
           intros t TT VT. destruct (W1 t TT VT) as (b2 & [E2|(_ & w' & E2)]); eauto.
    + exists None, None. split; [destruct r; cbn in *; subst; reflexivity|exact Logic.I].
  - replace (boot || (addr =? rp_dst p)) with true by (destruct boot, (addr =? rp_dst p); cbn in *; congruence).
    exists (r_limiter r), None. split; [destruct r; reflexivity|]. cbn. rewrite app_nil_r. eapply lim_later; eauto.
Qed.

Definition onext (o : option rpkt) : list rpkt := match o with Some p => [p] | None => [] end.
Lemma sent_app a b : sent (a ++ b) = sent a ++ sent b.
Proof. apply flat_map_app. Qed.
Lemma taken_app a b : taken (a ++ b) = taken a ++ taken b.
Proof. apply flat_map_app. Qed.
Lemma metered_app a b : metered addr (a ++ b) = metered addr a ++ metered addr b.
Proof. apply flat_map_app. Qed.
Lemma enter_silent ps : sent (enter_events ps) = [] /\ taken (enter_events ps) = [] /\ metered addr (enter_events ps) = [].
Proof. induction ps as [|x ps (A & B & C)]; cbn; auto. Qed.

Lemma arrive_length : forall ps l, length (arrive l ps) = (length l + length ps)%nat.
Proof.
  induction ps as [|(n, p) ps IH]; intros l; cbn [arrive fold_left fst snd]; [cbn; lia|].
  change (fold_left _ ps ?x) with (arrive x ps). rewrite IH. unfold insert_at. rewrite app_length. cbn [length].
  pose proof (firstn_skipn n l) as E. apply (f_equal (@length _)) in E. rewrite app_length in E. lia.
Qed.
Lemma arrive_ip : forall ps l, Forall ip_packet l -> Forall ip_packet (map snd ps) -> Forall ip_packet (arrive l ps).
Proof.
  induction ps as [|(n, p) ps IH]; intros l A B; [exact A|]. cbn [arrive fold_left fst snd]. change (fold_left _ ps ?x) with (arrive x ps).
  inversion B; subst. apply IH; [|assumption]. unfold insert_at. rewrite <- (firstn_skipn n l) in A. apply Forall_app in A. destruct A. apply Forall_app. split; [assumption|constructor; assumption].
Qed.

Lemma loop_ok : forall fuel r src reacts boot now acc log,
  (length src + length (onext (r_next r)) + total_reacts reacts < fuel)%nat -> lim_ok now (r_limiter r) acc -> now_ok now -> r_addr r = addr ->
  Forall ip_packet src -> Forall ip_packet (onext (r_next r)) -> Forall ip_packet (map snd (concat reacts)) ->
  exists lim nx src' e wait, forward_loop fuel r src reacts boot now log = Some (mkRelay lim addr Idle nx, src', log ++ e, wait) /\
    onext (r_next r) ++ taken e = sent e ++ onext nx /\ device src e = Some src' /\ lim_ok now lim (acc ++ metered addr e) /\
    Forall ip_packet src' /\ Forall ip_packet (onext nx) /\
    match wait with
    | None => src' = [] /\ nx = None
    | Some d => exists p, nx = Some p /\ boot = false /\ addr <> rp_dst p /\ 0 < d <= 65536000000 /\ blocked_until lim p now (now + d)
    end /\
    Forall (fun ev => match ev with ESend t b _ => t = now /\ b = boot | _ => True end) e /\
    (forall p, r_next r = Some p -> match admit (r_set_next r None) p boot now with
                                   | Some (_, None) => exists e', e = ESend now boot p :: e'
                                   | Some (_, Some _) => e = []
                                   | None => False end).
Proof.
  induction fuel as [|fuel IH]; [intros; lia|]. intros r src reacts boot now acc log FU LO NO AD IS IN IR. cbn [forward_loop].
  set (tk := match r_next r with Some p => Some (p, src, []) | None => match src with p :: rest => Some (p, rest, [EPop p]) | [] => None end end).
  destruct tk as [((p, src1), pops)|] eqn:TK.
  - (* a packet *)
    assert (F : ip_packet p /\ Forall ip_packet src1 /\ device src pops = Some src1 /\ onext (r_next r) ++ taken pops = [p] /\ sent pops = [] /\ metered addr pops = [] /\
      (length src1 + 1 <= length src + length (onext (r_next r)))%nat /\ Forall (fun ev => match ev with ESend t b _ => t = now /\ b = boot | _ => True end) pops /\ (forall x, r_next r = Some x -> x = p /\ pops = [])).
    { unfold tk in TK. destruct (r_next r) as [x|].
      - injection TK as <- <- <-. inversion IN; subst. cbn. split; [assumption|]. split; [exact IS|]. split; [reflexivity|]. split; [reflexivity|]. split; [reflexivity|]. split; [reflexivity|]. split; [lia|]. split; [constructor|].
        intros y E. injection E as <-. auto.
      - destruct src as [|x rest]; [discriminate|]. injection TK as <- <- <-. inversion IS; subst. split; [assumption|]. split; [assumption|]. split; [apply device_pop|].
        cbn. split; [reflexivity|]. split; [reflexivity|]. split; [reflexivity|]. split; [lia|]. split; [repeat constructor|]. discriminate. }
    destruct F as (F1 & F2 & F3 & F4 & F5 & F6 & F7 & F8 & F9).
    destruct (admit_ok (r_set_next r None) p boot now now acc LO) as (lim & wait & EQ & W); auto; try lia.
    rewrite EQ. ob. destruct wait as [d|].
    + destruct W as (W1 & W2 & W3 & W4 & W5). rewrite assert_true by reflexivity. ob.
      exists lim, (Some p), src1, pops, (Some d). split; [unfold r_set_limiter, r_set_next, r_set_state; cbn; rewrite AD; reflexivity|].
      split; [rewrite F4, F5; reflexivity|]. split; [exact F3|]. split; [rewrite F6, app_nil_r; exact W1|]. split; [exact F2|]. split; [constructor; [exact F1|constructor]|].
      split; [exists p; auto|]. split; [exact F8|]. intros x NX. destruct (F9 x NX) as (-> & ->). rewrite EQ. reflexivity.
    + destruct (IH (r_set_limiter (r_set_next r None) lim) (arrive src1 (hd [] reacts)) (tl reacts) boot now (acc ++ metered addr [ESend now boot p]) (log ++ pops ++ [ESend now boot p] ++ enter_events (hd [] reacts)))
        as (lim' & nx & src' & e & wait & E & C1 & C2 & C3 & C4 & C5 & C6 & C7 & _); auto.
      * cbn [r_set_limiter r_set_next r_next onext length]. rewrite arrive_length. destruct reacts as [|a reacts]; cbn [hd tl total_reacts concat] in *; unfold total_reacts in *; cbn [concat length] in *; rewrite ?app_length in FU; lia.
      * apply arrive_ip; [exact F2|]. destruct reacts as [|a reacts]; cbn [hd concat] in *; [constructor|]. rewrite map_app in IR. apply Forall_app in IR. apply IR.
      * constructor.
      * destruct reacts as [|a reacts]; cbn [tl concat] in *; [constructor|]. rewrite map_app in IR. apply Forall_app in IR. apply IR.
      * destruct (enter_silent (hd [] reacts)) as (S1 & S2 & S3).
        exists lim', nx, src', (pops ++ [ESend now boot p] ++ enter_events (hd [] reacts) ++ e), wait.
        split; [rewrite E; do 3 f_equal; rewrite <- !app_assoc; reflexivity|].
        split; [rewrite !taken_app, !sent_app, S1, S2, F5; cbn [taken sent flat_map app]; rewrite app_assoc, F4; cbn in C1 |- *; rewrite C1; reflexivity|].
        split; [rewrite device_app, F3; cbn [app device]; rewrite device_app, device_enter; exact C2|].
        split; [rewrite !metered_app, F6, S3; cbn [app]; rewrite <- app_assoc in C3; exact C3|].
        split; [exact C4|]. split; [exact C5|]. split; [exact C6|]. split.
        -- apply Forall_app. split; [exact F8|]. constructor; [auto|]. apply Forall_app. split; [|exact C7]. clear. unfold enter_events. induction (hd [] reacts); cbn; constructor; auto.
        -- intros x NX. destruct (F9 x NX) as (-> & ->). rewrite EQ. cbn [app]. eexists. reflexivity.
  - assert (F : r_next r = None /\ src = []) by (unfold tk in TK; destruct (r_next r); [discriminate|]; destruct src; [auto|discriminate]). destruct F as (F1 & ->).
    exists (r_limiter r), None, [], [], None. split; [unfold r_set_state; rewrite AD, F1, app_nil_r; reflexivity|]. rewrite F1.
    split; [reflexivity|]. split; [reflexivity|]. split; [cbn; rewrite app_nil_r; exact LO|]. split; [constructor|]. split; [constructor|]. split; [auto|]. split; [constructor|]. discriminate.
Qed.

(** ** The whole relay *)
Record winv (now : Z) (w : rworld) (tr : list revent) : Prop := {
  v_addr : r_addr (w_relay w) = addr;
  v_lim : lim_ok now (r_limiter (w_relay w)) (metered addr tr);
  v_dev : device [] tr = Some (w_src w);
  v_order : taken tr = sent tr ++ held w;
  v_ip : Forall ip_packet (w_src w) /\ Forall ip_packet (held w);
  v_start : START <= now;
  v_task : (r_state (w_relay w) = Idle /\ w_tasks w = [] /\ w_src w = [] /\ r_next (w_relay w) = None) \/
           (exists d, r_state (w_relay w) = Pending /\ w_tasks w = [d] /\ now <= d /\
              forall p, r_next (w_relay w) = Some p -> addr <> rp_dst p /\ blocked_until (r_limiter (w_relay w)) p now d) }.

Lemma blocked_later lim p now now' d : blocked_until lim p now d -> now <= now' -> blocked_until lim p now' d.
Proof. unfold blocked_until. destruct rate, lim; auto. intros (A & B & C) L. split; [exact A|]. split; [intros t T V; apply B; [lia|exact V]|]. intros G t T V. apply C; [exact G|lia|exact V]. Qed.

Lemma add_wait now d : now_ok now -> 0 <= d <= 65536000000 -> emu_checked_add now d = Some (now + d).
Proof.
  intros N D. assert (V : valid_emu now /\ valid_sim d /\ valid_emu (now + d)).
  { unfold now_ok, valid_emu, valid_sim, EMU_LIMIT, SIM_LIMIT, START in *. lia. }
  destruct V as (V1 & V2 & V3). destruct (emu_checked_add_exact now d V1 V2) as [X _]. exact (X V3).
Qed.
Lemma add_zero now : now_ok now -> emu_checked_add now 0 = Some now.
Proof. intros N. rewrite add_wait; [f_equal; lia|exact N|lia]. Qed.

(** The invariant with a device that may hold packets while no task is scheduled. *)
Lemma notify_ok now w tr : now_ok now -> 
  r_addr (w_relay w) = addr -> lim_ok now (r_limiter (w_relay w)) (metered addr tr) -> device [] tr = Some (w_src w) -> taken tr = sent tr ++ held w ->
  Forall ip_packet (w_src w) /\ Forall ip_packet (held w) ->
  ((r_state (w_relay w) = Idle /\ w_tasks w = [] /\ r_next (w_relay w) = None) \/
   (exists d, r_state (w_relay w) = Pending /\ w_tasks w = [d] /\ now <= d /\ forall p, r_next (w_relay w) = Some p -> addr <> rp_dst p /\ blocked_until (r_limiter (w_relay w)) p now d)) ->
  exists w', notify w now = Some w' /\ winv now w' tr.
Proof.
  intros NO A L D O I [(S & T & N)|(d & S & T & LE & B)].
  - unfold notify. rewrite S. unfold forward_later. rewrite S. rewrite assert_true by reflexivity. ob. rewrite add_zero by exact NO. ob. eexists. split; [reflexivity|].
    constructor; cbn; auto; [unfold now_ok in NO; lia|]. right. exists now. rewrite T. split; [reflexivity|]. split; [reflexivity|]. split; [lia|]. rewrite N. discriminate.
  - unfold notify. rewrite S. exists w. split; [reflexivity|]. constructor; auto; [unfold now_ok in NO; lia|]. right. exists d. auto.
Qed.

Lemma step_ok now w tr o : winv now w tr -> possible now w o -> exists w' e, r_step w o = Some (w', e) /\ winv (rop_time o) w' (tr ++ e) /\
  (forall t b rs, o = RFire t b rs -> Forall (fun ev => match ev with ESend t' b' _ => t' = t /\ b' = b | _ => True end) e) /\
  ((forall t b rs, o <> RFire t b rs) -> sent e = []) /\
  (forall t b rs p, o = RFire t b rs -> r_next (w_relay w) = Some p ->
     match admit (r_set_next (r_set_state (w_relay w) Forwarding) None) p b t with
     | Some (_, None) => exists e', e = ESend t b p :: e'
     | Some (_, Some _) => e = [] /\ r_next (w_relay w') = Some p
     | None => False end).
Proof.
  intros [A L D O I ST T] (P1 & P2 & P3 & P4). assert (NO : now_ok (rop_time o)) by (unfold now_ok; lia).
  pose proof (lim_later _ (rop_time o) _ _ L ltac:(lia)) as L'.
  assert (T' : (r_state (w_relay w) = Idle /\ w_tasks w = [] /\ w_src w = [] /\ r_next (w_relay w) = None) \/
           (exists d, r_state (w_relay w) = Pending /\ w_tasks w = [d] /\ rop_time o <= d /\
              forall p, r_next (w_relay w) = Some p -> addr <> rp_dst p /\ blocked_until (r_limiter (w_relay w)) p (rop_time o) d)).
  { destruct T as [T|(d & T1 & T2 & T3 & T4)]; [left; exact T|]. right. exists d. split; [exact T1|]. split; [exact T2|]. split; [apply P2; rewrite T2; left; reflexivity|].
    intros p N. destruct (T4 p N). split; [assumption|]. eapply blocked_later; eauto; lia. }
  assert (T'' : (r_state (w_relay w) = Idle /\ w_tasks w = [] /\ r_next (w_relay w) = None) \/
           (exists d, r_state (w_relay w) = Pending /\ w_tasks w = [d] /\ rop_time o <= d /\
              forall p, r_next (w_relay w) = Some p -> addr <> rp_dst p /\ blocked_until (r_limiter (w_relay w)) p (rop_time o) d)) by (destruct T' as [(? & ? & ? & ?)|?]; auto).
  destruct o as [t n p|t|t n|t boot reacts]; cbn [r_step rop_time] in *.
  - (* arrive *)
    assert (DV : device [] (tr ++ [EEnter n p]) = Some (insert_at n p (w_src w))) by (rewrite device_app, D; reflexivity).
    assert (OO : taken (tr ++ [EEnter n p]) = sent (tr ++ [EEnter n p]) ++ held w) by (rewrite taken_app, sent_app; cbn; rewrite !app_nil_r; exact O).
    assert (MM : metered addr (tr ++ [EEnter n p]) = metered addr tr) by (rewrite metered_app; cbn; apply app_nil_r).
    assert (II : Forall ip_packet (insert_at n p (w_src w))) by (apply (arrive_ip [(n, p)]); [apply I|constructor; [apply P3; left; reflexivity|constructor]]).
    destruct (w_src w) as [|x src] eqn:SR.
    + destruct (notify_ok t (mkW (w_relay w) (insert_at n p []) (w_tasks w)) (tr ++ [EEnter n p])) as (w' & E & V); auto.
      * rewrite MM. exact L'.
      * split; [exact II|apply I].
      * rewrite E. ob. exists w', [EEnter n p]. split; [reflexivity|]. split; [exact V|]. split; [discriminate|]. split; [reflexivity|]. discriminate.
    + eexists _, [EEnter n p]. split; [reflexivity|]. split; [|split; [discriminate|split; [reflexivity|discriminate]]].
      constructor; auto; [rewrite MM; exact L'|split; [exact II|apply I]|unfold now_ok in NO; lia|].
      destruct T' as [(_ & _ & X & _)|T']; [discriminate|]. right. exact T'.
  - destruct (notify_ok t w tr) as (w' & E & V); auto. rewrite E. ob. exists w', []. rewrite app_nil_r. split; [reflexivity|]. split; [exact V|]. split; [discriminate|]. split; [reflexivity|]. discriminate.
  - eexists _, [ELost n]. split; [reflexivity|]. split; [|split; [discriminate|split; [reflexivity|discriminate]]]. constructor; cbn [w_relay w_src w_tasks]; auto.
    + rewrite metered_app. cbn. rewrite app_nil_r. exact L'.
    + rewrite device_app, D. reflexivity.
    + rewrite taken_app, sent_app. cbn. rewrite !app_nil_r. exact O.
    + split; [|apply I]. destruct I as (I & _). apply Forall_app. split; [rewrite <- (firstn_skipn n (w_src w)) in I|rewrite <- (firstn_skipn (S n) (w_src w)) in I]; apply Forall_app in I; apply I.
    + unfold now_ok in NO. lia.
    + destruct T' as [(X1 & X2 & X3 & X4)|T']; [left|right; exact T']. rewrite X3. split; [exact X1|]. split; [exact X2|]. split; [destruct n; reflexivity|exact X4].
  - (* fire *)
    specialize (P4 boot reacts eq_refl). destruct T' as [(_ & X2 & _)|(d & X1 & X2 & X3 & X4)]; [rewrite X2 in P4; destruct P4|]. rewrite X2 in P4. destruct P4 as [->|[]].
    unfold run_forward_task, forward_until_blocked. cbn [w_relay w_src w_tasks]. rewrite X2. cbn [drop_task]. rewrite Z.eqb_refl.
    destruct (loop_ok (2 + length (w_src w) + total_reacts reacts) (r_set_state (r_set_state (w_relay w) Idle) Forwarding) (w_src w) reacts boot t (metered addr tr) []) as (lim & nx & src' & e & wait & E & C1 & C2 & C3 & C4 & C5 & C6 & C7 & C8); auto.
    { cbn [r_set_state r_next]. destruct (r_next (w_relay w)); cbn; lia. }
    { apply I. }
    { apply I. }
    { apply Forall_forall. intros x IX. apply P3. exact IX. }
    cbn [app] in E.
    rewrite E. ob. destruct wait as [d|].
    + destruct C6 as (p & -> & CB & CD & CW & CU). unfold forward_later. cbn [w_relay r_state]. rewrite assert_true by reflexivity. ob. rewrite add_wait by (auto; lia). ob.
      eexists _, e. split; [reflexivity|]. split; [|split; [|split]].
      * constructor; cbn [w_relay w_src w_tasks r_set_state r_addr r_limiter r_state r_next].
        -- reflexivity.
        -- rewrite metered_app. exact C3.
        -- rewrite device_app, D. exact C2.
        -- rewrite taken_app, sent_app, O. unfold held in *. cbn [r_set_state r_next w_relay] in *. rewrite <- !app_assoc. f_equal. exact C1.
        -- split; [exact C4|exact C5].
        -- unfold now_ok in NO. lia.
        -- right. exists (t + d). split; [reflexivity|]. split; [reflexivity|]. split; [lia|]. intros q N. injection N as <-. auto.
      * intros t' b' rs EO. injection EO as <- <- <-. exact C7.
      * intros NE. destruct (NE _ _ _ eq_refl).
      * intros t' b' rs q EO N. injection EO as <- <- <-. specialize (C8 q N). change (r_set_state (r_set_state (w_relay w) Idle) Forwarding) with (r_set_state (w_relay w) Forwarding) in C8.
        destruct (admit _ q boot t) as [(r2, [w0|])|]; auto. split; [exact C8|]. subst e. cbn in C1. rewrite N in C1. cbn in C1. injection C1 as ->. reflexivity.
    + destruct C6 as (-> & ->). eexists _, e. split; [reflexivity|]. split; [|split; [|split]].
      * constructor; cbn [w_relay w_src w_tasks r_set_state r_addr r_limiter r_state r_next].
        -- reflexivity.
        -- rewrite metered_app. exact C3.
        -- rewrite device_app, D. exact C2.
        -- rewrite taken_app, sent_app, O. unfold held in *. cbn [r_set_state r_next w_relay] in *. rewrite <- !app_assoc. f_equal. exact C1.
        -- split; [exact C4|exact C5].
        -- unfold now_ok in NO. lia.
        -- left. auto.
      * intros t' b' rs EO. injection EO as <- <- <-. exact C7.
      * intros NE. destruct (NE _ _ _ eq_refl).
      * intros t' b' rs q EO N. injection EO as <- <- <-. specialize (C8 q N). change (r_set_state (r_set_state (w_relay w) Idle) Forwarding) with (r_set_state (w_relay w) Forwarding) in C8.
        destruct (admit _ q boot t) as [(r2, [w0|])|]; auto. split; [exact C8|]. subst e. cbn in C1. rewrite N in C1. discriminate.
Qed.

Definition start (w0 : rworld) : Prop := exists r, relay_new rate addr = Some r /\ w0 = mkW r [] [].

Lemma start_ok w0 : start w0 -> winv START w0 [].
Proof.
  intros (r & E & ->). unfold relay_new in E. destruct rate as [bw|] eqn:RT.
  - assert (RB : 0 <= bw <= U64_MAX) by (apply RATE; auto). pose proof (inc_bounds bw RB) as IB. unfold create_token_bucket in E. cbv zeta in E. fold (inc bw) in E. rewrite assert_true in E by (unfold U64_MAX; lia). ob_in E. fold (cap bw) in E.
    destruct (tb_new (cap bw) (inc bw) 1000000) as [tb|] eqn:N; ob_in E; [|discriminate]. injection E as <-.
    destruct (new_inv _ _ _ _ (params bw RB) N) as (I & B & L & K).
    constructor; cbn; auto; [|lia]. unfold lim_ok. rewrite RT. constructor; [|exact I|lia]. exists tb, [], []. cbn. split; [exact N|]. split; [reflexivity|]. split; [exact Logic.I|]. split; [unfold last_time; cbn; lia|]. split; [intros d t []|reflexivity].
  - injection E as <-. constructor; cbn; auto; [|lia]. unfold lim_ok. rewrite RT. exact Logic.I.
Qed.

Lemma run_inv w0 : start w0 -> forall now ops tr w, r_run w0 now ops tr w -> winv now w tr.
Proof.
  intros S0 now ops tr w R. induction R as [|now ops tr w o w' e R IH P E]; [exact (start_ok w0 S0)|].
  destruct (step_ok now w tr o IH P) as (w1 & e1 & E1 & V & _). rewrite E in E1. injection E1 as <- <-. exact V.
Qed.

Lemma in_order w0 now ops tr w : start w0 -> r_run w0 now ops tr w -> taken tr = sent tr ++ held w /\ device [] tr = Some (w_src w).
Proof. intros S0 R. destruct (run_inv w0 S0 _ _ _ _ R). auto. Qed.

Lemma conserved w0 now ops tr w : start w0 -> r_run w0 now ops tr w -> lossless tr ->
  Permutation (entered tr) (sent tr ++ held w ++ w_src w) /\ (fifo_device tr -> entered tr = sent tr ++ held w ++ w_src w).
Proof.
  intros S0 R LL. destruct (run_inv w0 S0 _ _ _ _ R) as [_ _ D O _ _ _]. split.
  - pose proof (device_perm tr [] _ LL D) as P. cbn in P. rewrite P, O, app_assoc. reflexivity.
  - intros FF. pose proof (device_fifo tr [] _ (length (entered tr)) LL FF ltac:(cbn; lia) D) as P. cbn in P. rewrite P, O, app_assoc. reflexivity.
Qed.

Lemma no_panic w0 now ops tr w o : start w0 -> r_run w0 now ops tr w -> possible now w o -> exists w' e, r_step w o = Some (w', e).
Proof. intros S0 R P. destruct (step_ok _ _ _ _ (run_inv w0 S0 _ _ _ _ R) P) as (w' & e & E & _). eauto. Qed.

Lemma wakeup w0 now ops tr w : start w0 -> r_run w0 now ops tr w ->
  (exists d, w_tasks w = [d] /\ now <= d) \/ (w_tasks w = [] /\ held w = [] /\ w_src w = []).
Proof.
  intros S0 R. destruct (run_inv w0 S0 _ _ _ _ R) as [_ _ _ _ _ _ [(A & B & C & D)|(d & A & B & C & _)]]; [right|left; eauto].
  unfold held. rewrite D. auto.
Qed.

Lemma admit_held bw w p t b lim : rate = Some bw -> r_addr (w_relay w) = addr -> r_limiter (w_relay w) = Some lim -> 
  (exists b2 bal, tb_conforming_remove lim (rp_len p) t = Some (b2, TbOk bal)) ->
  exists r2, admit (r_set_next (r_set_state (w_relay w) Forwarding) None) p b t = Some (r2, None).
Proof.
  intros RT A L (b2 & bal & E). unfold admit. cbn [r_set_next r_set_state r_addr r_limiter]. rewrite A, L, E. destruct (negb b && negb (addr =? rp_dst p)); ob; eauto.
Qed.

(** A packet that fits the bucket leaves as soon as the scheduled task runs. *)
Lemma released w0 now ops tr w p d b rs : start w0 -> r_run w0 now ops tr w -> held w = [p] ->
  possible now w (RFire d b rs) -> (forall bw, rate = Some bw -> rp_len p <= cap bw) ->
  exists w' e, r_step w (RFire d b rs) = Some (w', ESend d b p :: e).
Proof.
  intros S0 R H P FIT. pose proof (run_inv w0 S0 _ _ _ _ R) as V. destruct (step_ok _ _ _ _ V P) as (w' & e & E & _ & _ & _ & AD).
  unfold held in H. destruct (r_next (w_relay w)) as [p0|] eqn:N; [|discriminate]. injection H as ->. specialize (AD d b rs p eq_refl eq_refl).
  destruct V as [A L _ _ _ _ [(_ & _ & _ & X)|(d0 & X1 & X2 & X3 & X4)]]; [congruence|]. destruct (X4 p N) as (X5 & X6).
  assert (d0 = d). { destruct P as (_ & _ & _ & P4). specialize (P4 b rs eq_refl). rewrite X2 in P4. destruct P4 as [P4|[]]. exact P4. } subst d0.
  unfold blocked_until in X6. destruct rate as [bw|] eqn:RT; [|destruct X6]. destruct (r_limiter (w_relay w)) as [lim|] eqn:LI; [|destruct X6].
  destruct X6 as (X6 & _ & _). destruct (admit_held bw w p d b lim RT A LI (X6 (FIT bw eq_refl))) as (r2 & EA). rewrite EA in AD. destruct AD as (e' & ->). eauto.
Qed.

(** Until then the bucket would refuse it. *)
Lemma not_before w0 now ops tr w p d : start w0 -> r_run w0 now ops tr w -> held w = [p] -> w_tasks w = [d] ->
  exists b, r_limiter (w_relay w) = Some b /\ addr <> rp_dst p /\ forall t, now <= t < d -> t <= EMU_LIMIT -> exists b2 x, tb_conforming_remove b (rp_len p) t = Some (b2, TbWait x).
Proof.
  intros S0 R H T. destruct (run_inv w0 S0 _ _ _ _ R) as [A L _ _ _ ST [(_ & _ & _ & X)|(d0 & X1 & X2 & X3 & X4)]]; unfold held in H; destruct (r_next (w_relay w)) as [p0|] eqn:N; try discriminate.
  injection H as ->. rewrite T in X2. injection X2 as <-. destruct (X4 p eq_refl) as (X5 & X6). unfold blocked_until in X6. destruct rate as [bw|]; [|destruct X6]. destruct (r_limiter (w_relay w)) as [b|]; [|destruct X6].
  exists b. split; [reflexivity|]. split; [exact X5|]. destruct X6 as (_ & X6 & _). intros t TT VT. apply X6; [exact TT|]. unfold valid_emu. unfold START in ST. lia.
Qed.

(** ** Rate *)
Lemma app_inj_length {A} : forall (a b c d : list A), a ++ c = b ++ d -> length a = length b -> a = b /\ c = d.
Proof. induction a as [|x a IH]; intros [|y b] c d E L; cbn in *; try lia; [auto|]. injection E as -> E. destruct (IH b c d E ltac:(lia)) as (-> & ->). auto. Qed.
Lemma passed_at : forall reqs res x q y, length res = length reqs -> passed reqs res = x ++ q :: y ->
  exists r1 s1 k r2 s2, reqs = r1 ++ q :: r2 /\ res = s1 ++ k :: s2 /\ length s1 = length r1 /\ length s2 = length r2 /\ accepted k = true /\ passed r1 s1 = x /\ passed r2 s2 = y.
Proof.
  induction reqs as [|a reqs IH]; intros [|k res] x q y LN E; cbn in LN; try lia; [destruct x; discriminate|]. cbn [passed] in E. destruct (accepted k) eqn:AK.
  - destruct x as [|b x]; cbn in E; injection E as -> E.
    + exists [], [], k, reqs, res. repeat (split; [reflexivity || lia || assumption|]). exact E.
    + destruct (IH res x q y ltac:(lia) E) as (r1 & s1 & k' & r2 & s2 & -> & -> & L1 & L2 & A & P1 & P2).
      exists (b :: r1), (k :: s1), k', r2, s2. cbn. rewrite AK, P1. repeat (split; [reflexivity || lia || assumption|]). exact P2.
  - cbn in E. destruct (IH res x q y ltac:(lia) E) as (r1 & s1 & k' & r2 & s2 & -> & -> & L1 & L2 & A & P1 & P2).
    exists (a :: r1), (k :: s1), k', r2, s2. cbn. rewrite AK, P1. repeat (split; [reflexivity || lia || assumption|]). exact P2.
Qed.
Lemma removed_bytes : forall reqs res, length res = length reqs -> removed reqs res = bytes (passed reqs res).
Proof.
  induction reqs as [|(d, t) reqs IH]; intros [|k res] LN; cbn in LN; try lia; [reflexivity|]. cbn [removed passed]. rewrite IH by lia. destruct (accepted k); reflexivity.
Qed.
Lemma tb_run_prefix b r1 r2 b2 res : tb_run b (r1 ++ r2) = Some (b2, res) -> exists b1 s1 s2, tb_run b r1 = Some (b1, s1) /\ tb_run b1 r2 = Some (b2, s2) /\ res = s1 ++ s2.
Proof.
  rewrite run_app. destruct (tb_run b r1) as [(b1, s1)|]; ob; [|discriminate]. destruct (tb_run b1 r2) as [(b2', s2)|] eqn:E2; ob; [|discriminate]. intros X. injection X as <- <-. eauto 10.
Qed.
Lemma bytes_app a b : bytes (a ++ b) = bytes a + bytes b.
Proof. unfold bytes. induction a as [|x a IH]; [reflexivity|]. cbn [app map]. change (zsum (fst x :: ?l)) with (fst x + zsum l). change (zsum (fst x :: map fst (a ++ b))) with (fst x + zsum (map fst (a ++ b))). lia. Qed.

Lemma rate_ok bw w0 now ops tr w a l1 t1 m c : rate = Some bw -> start w0 -> r_run w0 now ops tr w -> metered addr tr = a ++ ((l1, t1) :: m) ++ c ->
  bytes ((l1, t1) :: m) <= cap bw + inc bw * (boundaries 1000000 (last_time t1 m) - boundaries 1000000 t1).
Proof.
  intros RT S0 R E. destruct (run_inv w0 S0 _ _ _ _ R) as [_ L _ _ _ _ _]. unfold lim_ok in L. rewrite RT in L. destruct (r_limiter (w_relay w)) as [b|]; [|destruct L].
  assert (RB : 0 <= bw <= U64_MAX) by (apply RATE; auto).
  destruct L as [(b0 & reqs & res & N & RN & TO & _ & FI & PA) _ _]. rewrite E in PA. cbn [app] in PA.
  pose proof (tb_run_length _ _ _ _ RN) as LN.
  destruct (passed_at reqs res a (l1, t1) (m ++ c) LN PA) as (r1 & s1 & k & r2 & s2 & -> & -> & L1 & L2 & AK & P1 & P2).
  assert (MID : exists mid rest smid srest, r2 = mid ++ rest /\ s2 = smid ++ srest /\ length smid = length mid /\ passed mid smid = m /\ last_time t1 mid = last_time t1 m).
  { destruct m as [|y m'] eqn:EM.
    - exists [], r2, [], s2. auto.
    - destruct (@exists_last _ (y :: m')) as (m0 & z & EZ); [discriminate|]. rewrite EZ in *. clear y m' EM EZ.
      rewrite <- app_assoc in P2. cbn [app] in P2. destruct (passed_at r2 s2 m0 z c L2 P2) as (ra & sa & k' & rb & sb & -> & -> & La & Lb & Ak & Pa & Pb).
      exists (ra ++ [z]), rb, (sa ++ [k']), sb. rewrite <- !app_assoc. split; [reflexivity|]. split; [reflexivity|]. split; [rewrite !app_length; cbn; lia|].
      split; [rewrite passed_snoc by lia; rewrite Pa, Ak; reflexivity|]. destruct z. rewrite !last_time_snoc. reflexivity. }
  destruct MID as (mid & rest & smid & srest & -> & -> & LM & PM & LT).
  assert (RN' : tb_run b0 ((r1 ++ (l1, t1) :: mid) ++ rest) = Some (b, (s1 ++ k :: smid) ++ srest)) by (rewrite <- !app_assoc; exact RN).
  destruct (tb_run_prefix _ _ _ _ _ RN') as (b1 & u1 & u2 & R1 & R2 & EU). destruct (tb_run_prefix _ _ _ _ _ R1) as (b2 & v1 & v2 & R3 & R4 & ->).
  pose proof (tb_run_length _ _ _ _ R3) as LV1. pose proof (tb_run_length _ _ _ _ R4) as LV2.
  assert (v1 = s1 /\ v2 = k :: smid) as (-> & ->).
  { rewrite <- !app_assoc in EU. destruct (app_inj_length s1 v1 (( k :: smid) ++ srest) (v2 ++ u2) EU ltac:(lia)) as (<- & EU2). split; [reflexivity|].
    destruct (app_inj_length (k :: smid) v2 srest u2 EU2) as (<- & _); [|reflexivity]. cbn [length] in *. lia. }
  assert (EX : r1 ++ (l1, t1) :: mid ++ rest = (r1 ++ (l1, t1) :: mid) ++ rest) by (rewrite <- app_assoc; reflexivity). rewrite EX in TO, FI.
  assert (H : removed ((l1, t1) :: mid) (k :: smid) <= cap bw + inc bw * (boundaries 1000000 (last_time t1 mid) - boundaries 1000000 t1)).
  { eapply (rate_window (cap bw) (inc bw) 1000000 b0 r1 l1 t1 mid b1 s1 (k :: smid) b2 (params bw RB) N); eauto.
    - apply times_ok_app in TO. apply TO.
    - intros d t IN. apply fits_ip; [pose proof (inc_bounds bw RB); lia|]. eapply FI. apply in_or_app. left. exact IN. }
  rewrite removed_bytes in H by (cbn; lia). cbn [passed] in H. rewrite AK, PM, LT in H. exact H.
Qed.

(** ** Oversize packets *)
Lemma metered_fits bw w0 now ops tr w l t : rate = Some bw -> start w0 -> r_run w0 now ops tr w -> In (l, t) (metered addr tr) -> l <= cap bw.
Proof.
  intros RT S0 R IN. apply in_split in IN. destruct IN as (a & c & E). pose proof (rate_ok bw w0 now ops tr w a l t [] c RT S0 R E) as H.
  unfold bytes, last_time in H. cbn in H. lia.
Qed.
Lemma sent_metered tr p : (forall t p, ~ In (ESend t true p) tr) -> In p (sent tr) -> addr <> rp_dst p -> exists t, In (rp_len p, t) (metered addr tr).
Proof.
  intros NB IN NL. unfold sent in IN. apply in_flat_map in IN. destruct IN as (e & IE & IP). destruct e as [n q|n|q|t b q]; try (destruct IP; fail). destruct IP as [->|[]].
  exists t. unfold metered. apply in_flat_map. exists (ESend t b p). split; [exact IE|]. destruct b; [destruct (NB t p IE)|]. destruct (Z.eqb_spec addr (rp_dst p)); [contradiction|]. left. reflexivity.
Qed.
Lemma oversize bw w0 now ops tr w a p b : rate = Some bw -> start w0 -> r_run w0 now ops tr w -> (forall t b rs, In (RFire t b rs) ops -> b = false) ->
  taken tr = a ++ p :: b -> addr <> rp_dst p -> cap bw < rp_len p -> sent tr = a /\ b = [] /\ held w = [p].
Proof.
  intros RT S0 R NB TK NL OV.
  assert (NBS : forall t p, ~ In (ESend t true p) tr).
  { clear TK. revert NB. induction R as [|now ops tr w o w' e R IH P E]; intros NB t q IN; [destruct IN|].
    apply in_app_or in IN. destruct IN as [IN|IN]; [eapply IH; [|exact IN]; intros; eapply NB; apply in_or_app; left; eauto|].
    destruct (step_ok now w tr o (run_inv w0 S0 _ _ _ _ R) P) as (w1 & e1 & E1 & _ & F1 & F2 & _). rewrite E in E1. injection E1 as <- <-.
    destruct o as [t0 n p0|t0|t0 n|t0 b0 rs]; try (assert (X : sent e = []) by (apply F2; discriminate); assert (Y : In q (sent e)) by (unfold sent; apply in_flat_map; eexists; split; [exact IN|left; reflexivity]); rewrite X in Y; destruct Y).
    specialize (F1 t0 b0 rs eq_refl). rewrite Forall_forall in F1. specialize (F1 _ IN). cbn in F1. destruct F1 as (_ & F1). assert (b0 = false) by (eapply NB; apply in_or_app; right; left; reflexivity). congruence. }
  pose proof (run_inv w0 S0 _ _ _ _ R) as V. pose proof (v_order _ _ _ V) as O. rewrite TK in O.
  assert (NI : ~ In p (sent tr)). { intros IN. destruct (sent_metered tr p NBS IN NL) as (t & IM). pose proof (metered_fits bw w0 now ops tr w _ t RT S0 R IM). lia. }
  assert (HL : (length (held w) <= 1)%nat) by (unfold held; destruct (r_next (w_relay w)); cbn; lia).
  assert (LE : (length (sent tr) <= length a)%nat).
  { destruct (Nat.le_gt_cases (length (sent tr)) (length a)) as [?|G]; [assumption|]. exfalso. apply NI.
    assert (nth_error (sent tr ++ held w) (length a) = Some p) as NE by (rewrite <- O, nth_error_app2, Nat.sub_diag by lia; reflexivity).
    rewrite nth_error_app1 in NE by lia. eapply nth_error_In; eauto. }
  pose proof (f_equal (@length _) O) as LO. rewrite !app_length in LO. cbn [length] in LO.
  assert (b = []) by (destruct b; [reflexivity|cbn in LO; lia]). subst b. cbn [length] in LO.
  destruct (app_inj_length a (sent tr) [p] (held w) O ltac:(lia)) as (-> & <-). auto.
Qed.
End Relay.
