(** C10: the relay. *)
From Verif Require Import Base TimeModel TimeSpec TokenBucketModel TokenBucketSpec RelayModel RelaySpec RelayProofs.
From Coq Require Import Permutation.

(** A relay as configured: unlimited, or limited to a number of bytes per second. *)
Definition fresh (rate : option Z) (addr : Z) (w : rworld) : Prop := exists r, relay_new rate addr = Some r /\ w = mkW r [] [].
Definition valid_rate (rate : option Z) : Prop := forall bw, rate = Some bw -> 0 <= bw <= U64_MAX.
(** Tokens per millisecond, and bucket size. *)
Definition per_ms (bw : Z) : Z := Z.max 1 (bw / 1000).
Definition burst (bw : Z) : Z := per_ms bw + 1500.

(** C10. Packets are pushed to their destinations in the order the source device supplied them, each
    once; at most one is held back; the source device holds what entered it and was not taken. *)
Theorem C10_in_order : forall rate addr, valid_rate rate -> forall w0 now ops tr w, fresh rate addr w0 -> r_run w0 now ops tr w ->
  taken tr = sent tr ++ held w /\ device [] tr = Some (w_src w).
Proof. exact in_order. Qed.
Print Assumptions C10_in_order.

(** C10. Nothing is lost or invented: if the device itself drops nothing, the packets that entered it
    are those sent, the one held back and those still in the device; in order, if it is a fifo. *)
Theorem C10_conserves : forall rate addr, valid_rate rate -> forall w0 now ops tr w, fresh rate addr w0 -> r_run w0 now ops tr w -> lossless tr ->
  Permutation (entered tr) (sent tr ++ held w ++ w_src w) /\ (fifo_device tr -> entered tr = sent tr ++ held w ++ w_src w).
Proof. exact conserved. Qed.
Print Assumptions C10_conserves.

(** C10. No possible event makes the relay panic. *)
Theorem C10_no_panic : forall rate addr, valid_rate rate -> forall w0 now ops tr w o, fresh rate addr w0 -> r_run w0 now ops tr w ->
  possible now w o -> exists w' e, r_step w o = Some (w', e).
Proof. exact no_panic. Qed.
Print Assumptions C10_no_panic.

(** C10. Exactly one wake-up is scheduled whenever the relay holds a packet or the device has one. *)
Theorem C10_one_wakeup : forall rate addr, valid_rate rate -> forall w0 now ops tr w, fresh rate addr w0 -> r_run w0 now ops tr w ->
  (exists d, w_tasks w = [d] /\ now <= d) \/ (w_tasks w = [] /\ held w = [] /\ w_src w = []).
Proof. exact wakeup. Qed.
Print Assumptions C10_one_wakeup.

(** C10. A held packet that fits the bucket leaves when that wake-up runs. *)
Theorem C10_released : forall rate addr, valid_rate rate -> forall w0 now ops tr w p d b rs, fresh rate addr w0 -> r_run w0 now ops tr w -> held w = [p] ->
  possible now w (RFire d b rs) -> (forall bw, rate = Some bw -> rp_len p <= burst bw) ->
  exists w' e, r_step w (RFire d b rs) = Some (w', ESend d b p :: e).
Proof. exact released. Qed.
Print Assumptions C10_released.

(** C10. A packet is held back only while the token bucket would refuse it. *)
Theorem C10_not_before : forall rate addr, valid_rate rate -> forall w0 now ops tr w p d, fresh rate addr w0 -> r_run w0 now ops tr w -> held w = [p] -> w_tasks w = [d] ->
  exists b, r_limiter (w_relay w) = Some b /\ addr <> rp_dst p /\
    forall t, now <= t < d -> t <= EMU_LIMIT -> exists b2 x, tb_conforming_remove b (rp_len p) t = Some (b2, TbWait x).
Proof. exact not_before. Qed.
Print Assumptions C10_not_before.

(** C10. Over any stretch of a run, the non-local traffic sent outside bootstrapping is at most the
    bucket size plus the refill for the millisecond boundaries crossed. *)
Theorem C10_rate : forall rate addr, valid_rate rate -> forall bw w0 now ops tr w a l1 t1 m c, rate = Some bw -> fresh rate addr w0 -> r_run w0 now ops tr w ->
  metered addr tr = a ++ ((l1, t1) :: m) ++ c ->
  bytes ((l1, t1) :: m) <= burst bw + per_ms bw * (boundaries 1000000 (last_time t1 m) - boundaries 1000000 t1).
Proof. exact rate_ok. Qed.
Print Assumptions C10_rate.

(** Finding: a packet larger than the bucket is never sent. Once the relay takes it, nothing is sent
    any more, however long the simulation runs. *)
Theorem C10_oversize : forall rate addr, valid_rate rate -> forall bw w0 now ops tr w a p b, rate = Some bw -> fresh rate addr w0 -> r_run w0 now ops tr w ->
  (forall t b rs, In (RFire t b rs) ops -> b = false) ->
  taken tr = a ++ p :: b -> addr <> rp_dst p -> burst bw < rp_len p -> sent tr = a /\ b = [] /\ held w = [p].
Proof. exact oversize. Qed.
Print Assumptions C10_oversize.

(** Executable runs, for the cases below. *)
Fixpoint r_exec (now : Z) (w : rworld) (ops : list rop) : option (rworld * list revent) :=
  match ops with
  | [] => Some (w, [])
  | o :: r => do (w1, e) <- r_step w o; do (w2, e2) <- r_exec (rop_time o) w1 r; Some (w2, e ++ e2)
  end.
Definition possibleb (now : Z) (w : rworld) (o : rop) : bool :=
  (now <=? rop_time o) && (rop_time o <=? EMU_LIMIT - 100000000000) && forallb (fun d => rop_time o <=? d) (w_tasks w) &&
  forallb (fun p => (0 <=? rp_len p) && (rp_len p <=? 65535)) (entering o) &&
  match o with RFire t _ _ => existsb (Z.eqb t) (w_tasks w) | _ => true end.
Fixpoint all_possible (now : Z) (w : rworld) (ops : list rop) : bool :=
  match ops with
  | [] => true
  | o :: r => possibleb now w o && match r_step w o with Some (w1, _) => all_possible (rop_time o) w1 r | None => false end
  end.
Lemma possible_sound now w o : possibleb now w o = true -> possible now w o.
Proof.
  unfold possibleb, possible. intros H. repeat (apply andb_true_iff in H; destruct H as [H ?]). split; [lia|]. split; [|split].
  - intros d I. rewrite forallb_forall in *. match goal with K : forall x, In x (w_tasks w) -> _ |- _ => specialize (K d I); lia end.
  - intros p I. match goal with K : forallb _ (entering o) = true |- _ => rewrite forallb_forall in K; specialize (K p I) end. unfold ip_packet. lia.
  - intros b r EO. destruct o; try discriminate. match goal with K : existsb _ _ = true |- _ => apply existsb_exists in K; destruct K as (x & I & E) end. cbn [rop_time] in *. apply Z.eqb_eq in E. subst. exact I.
Qed.
Lemma exec_run w0 now ops tr w : r_run w0 now ops tr w -> forall more w' e, all_possible now w more = true -> r_exec now w more = Some (w', e) ->
  exists now', r_run w0 now' (ops ++ more) (tr ++ e) w'.
Proof.
  intros R more. revert now ops tr w R. induction more as [|o more IH]; intros now ops tr w R w' e P E; cbn in P, E.
  - injection E as <- <-. exists now. rewrite !app_nil_r. exact R.
  - apply andb_true_iff in P. destruct P as (P1 & P2). destruct (r_step w o) as [(w1, e1)|] eqn:ST; ob_in E; [|discriminate].
    destruct (r_exec (rop_time o) w1 more) as [(w2, e2)|] eqn:EX; ob_in E; [|discriminate]. injection E as <- <-.
    assert (R1 : r_run w0 (rop_time o) (ops ++ [o]) (tr ++ e1) w1) by (econstructor; eauto using possible_sound).
    destruct (IH _ _ _ _ R1 _ _ P2 EX) as (now' & R2). exists now'. rewrite <- !app_assoc in R2. exact R2.
Qed.

(** 1 Mbit/s: 125 bytes per millisecond, bucket of 1625 bytes. *)
Definition S0 : Z := 946684800000000000.
Definition mbit : rworld := match relay_new (Some 125000) 11 with Some r => mkW r [] [] | None => mkW (mkRelay None 0 Idle None) [] [] end.
Lemma mbit_fresh : fresh (Some 125000) 11 mbit.
Proof. eexists. split; vm_compute; reflexivity. Qed.
Definition outcome (ops : list rop) : rworld * list revent := match r_exec S0 mbit ops with Some x => x | None => (mbit, []) end.
Lemma outcome_run ops : all_possible S0 mbit ops = true -> match r_exec S0 mbit ops with Some _ => True | None => False end ->
  exists now, r_run mbit now ops (snd (outcome ops)) (fst (outcome ops)).
Proof.
  intros P E. unfold outcome. destruct (r_exec S0 mbit ops) as [(w, tr)|] eqn:X; [|destruct E].
  exact (exec_run mbit S0 [] [] mbit (r_run_nil mbit) ops w tr P X).
Qed.

Definition ex_rops : list rop :=
  [RArrive S0 0 (mkR 1 1500 99); RArrive S0 1 (mkR 2 1000 99); RNotify S0; RFire S0 false [[(5%nat, mkR 3 700 11)]];
   RArrive (S0 + 100) 9 (mkR 4 60 99); RFire (S0 + 7000000) false []; RFire (S0 + 8000000) false []].
Example C10_case : exists now w tr, r_run mbit now ex_rops tr w /\ map rp_id (sent tr) = [1; 2; 3; 4] /\ held w = [] /\ w_src w = [] /\ w_tasks w = [] /\
  metered 11 tr = [(1500, S0); (1000, S0 + 7000000); (60, S0 + 8000000)].
Proof.
  destruct (outcome_run ex_rops) as (now & R); [vm_compute; reflexivity|vm_compute; exact I|]. exists now. do 2 eexists. split; [exact R|].
  repeat (split; [vm_compute; reflexivity|]). vm_compute. reflexivity.
Qed.

(** Finding: a 3028-byte UDP packet, which an application may send, reaches that state on a 1 Mbit/s
    host; the small packet behind it never leaves. *)
Definition big_rops : list rop := [RArrive S0 0 (mkR 1 3028 99); RArrive S0 1 (mkR 2 100 99); RFire S0 false []].
Theorem C10_oversize_refuted : exists w0 now tr w, fresh (Some 125000) 11 w0 /\ r_run w0 now big_rops tr w /\
  held w = [mkR 1 3028 99] /\ w_src w = [mkR 2 100 99] /\ sent tr = [] /\ burst 125000 < 3028.
Proof.
  destruct (outcome_run big_rops) as (now & R); [vm_compute; reflexivity|vm_compute; exact I|]. exists mbit, now. do 2 eexists.
  split; [exact mbit_fresh|]. split; [exact R|]. repeat (split; [vm_compute; reflexivity|]). vm_compute. reflexivity.
Qed.
Print Assumptions C10_oversize_refuted.
