(** Names and backlogs of unix sockets as their calls tell them. *)
From Verif Require Import Base FMap UnixModel UnixSpec UnixFacts UnixInv UnixOps UnixWorld UnixNotes UnixReady UnixTraces UnixDeliver UnixWaits UnixWritable UnixNames UnixQueue UnixLaws.

(** The backlog of the last listen on [y] that succeeded. *)
Definition listen1 (y : Z) (e : event) : option Z := match e with (_, Listen z n, ROk) => if z =? y then Some n else None | _ => None end.
Definition backlog (y : Z) (evs : list event) : option Z := fold_left (fun b e => match listen1 y e with Some n => Some n | None => b end) evs None.
Lemma backlog_snoc y evs e : backlog y (evs ++ [e]) = match listen1 y e with Some n => Some n | None => backlog y evs end.
Proof. unfold backlog. rewrite fold_left_app. reflexivity. Qed.
Lemma step_limit S o S' r y : KInv S -> s_step S o = Some (S', r) -> forall k' q' lim', ks S' y = Some k' -> k_role k' = KListen q' lim' ->
  match listen1 y (S, o, r) with
  | Some n => lim' = queue_size n
  | None => exists k q, ks S y = Some k /\ k_role k = KListen q lim'
  end.
Proof.
  intros KI H.
  assert (SAME : S' = S -> listen1 y (S, o, r) = None -> forall k' q' lim', ks S' y = Some k' -> k_role k' = KListen q' lim' ->
    match listen1 y (S, o, r) with Some n => lim' = queue_size n | None => exists k q, ks S y = Some k /\ k_role k = KListen q lim' end).
  { intros -> -> k' q' lim' K' R. eauto. }
  assert (PUT : forall z k k', ks S z = Some k -> (forall y, ks S' y = if y =? z then Some k' else ks S y) -> listen1 y (S, o, r) = None ->
    (k_role k' = k_role k \/ forall q l, k_role k' <> KListen q l) -> forall k' q' lim', ks S' y = Some k' -> k_role k' = KListen q' lim' ->
    match listen1 y (S, o, r) with Some n => lim' = queue_size n | None => exists k q, ks S y = Some k /\ k_role k = KListen q lim' end).
  { intros z k k1 K E -> R k' q' lim' K' R'. rewrite E in K'. destruct (Z.eqb_spec y z) as [->|]; [|eauto]. injection K' as <-. exists k, q'. split; auto.
    destruct R as [R|R]; [congruence|elim (R q' lim' R')]. }
  assert (NONE : ks S (ks_next S) = None).
  { destruct (ks S (ks_next S)) eqn:E; auto. destruct (ki_next S KI (ks_next S)); [congruence|lia]. }
  destruct o.
  7:{ pose proof (step_send _ _ _ _ _ _ _ _ _ _ H) as E. destruct r; try contradiction; try (apply SAME; [assumption|reflexivity]).
      destruct E as (? & ? & dd & _ & _ & _ & _ & Y & _ & _ & _ & _ & _ & ->). eapply PUT; [exact Y|reflexivity|reflexivity|left; reflexivity]. }
  7:{ pose proof (step_recv _ _ _ _ _ _ _ _ _ _ H) as E. destruct r; try contradiction; try (apply SAME; [assumption|reflexivity]).
      destruct E as (k & K & _ & _ & _ & E). destruct (k_role k) eqn:R; try contradiction.
      - destruct E as (_ & E). destruct (k_in k) as [|[[? ?] ?] ?]; [destruct E as (_ & -> & _); apply SAME; reflexivity|].
        destruct (k_type k); destruct E as (_ & _ & _ & ->); (eapply PUT; [exact K|reflexivity|reflexivity|left; reflexivity]).
      - destruct E as (? & ? & ? & ? & _ & _ & E). destruct (k_type k); destruct E as (_ & _ & _ & ->);
          (eapply PUT; [exact K|reflexivity|reflexivity|left; reflexivity]). }
  7:{ cbn in H. injection H as <- <-. intros k' q' lim' K' R. cbn [listen1]. pose proof (close_dies l S y) as D. destruct (ks S y) as [k|] eqn:K.
      - destruct D as [D|D]; rewrite D in K'; injection K' as <-; [eauto|discriminate R].
      - rewrite D in K'. discriminate. }
  all: cbn in H.
  - injection H as <- <-. intros k' q' lim'. cbn. destruct (Z.eqb_spec y (ks_next S)); [|eauto].
    intros E R. injection E as <-. cbn in R. destruct t; discriminate R.
  - injection H as <- <-. intros k' q' lim'. cbn. destruct (Z.eqb_spec y (ks_next S + 1)) as [->|].
    { intros E R. injection E as <-. cbn in *. destruct t; discriminate R. }
    destruct (Z.eqb_spec y (ks_next S)) as [->|]; [|eauto]. intros E R. injection E as <-. cbn in *. destruct t; discriminate R.
  - unfold s_with in H. destruct (ks S x) as [k|] eqn:K; [|injection H as <- <-; apply SAME; reflexivity].
    destruct (k_fd k); [|injection H as <- <-; apply SAME; reflexivity]. apply some_inj in H.
    assert (CL : forall n, S' = k_claim_name S x k n -> forall k' q' lim', ks S' y = Some k' -> k_role k' = KListen q' lim' ->
      exists k q, ks S y = Some k /\ k_role k = KListen q lim').
    { intros n ->. eapply (PUT x k); [exact K|intro; cbn; reflexivity|reflexivity|left; reflexivity]. }
    unfold s_bind in H. destruct (k_role k); try (injection H as <- <-; apply SAME; reflexivity);
      (destruct (k_name k); [injection H as <- <-; apply SAME; reflexivity|]); (destruct a as [[|c p]|]; [| |injection H as <- <-; apply SAME; reflexivity]).
    + destruct (autobind_name _ _); injection H as <- <-; [eapply CL; reflexivity|apply SAME; reflexivity].
    + destruct c; [destruct (taken _ _ _)|..]; injection H as <- <-; try (apply SAME; reflexivity). eapply CL; reflexivity.
    + destruct (autobind_name _ _); injection H as <- <-; [eapply CL; reflexivity|apply SAME; reflexivity].
    + destruct c; [destruct (taken _ _ _)|..]; injection H as <- <-; try (apply SAME; reflexivity). eapply CL; reflexivity.
  - unfold s_with in H. destruct (ks S x) as [k|] eqn:K; [|injection H as <- <-; apply SAME; reflexivity].
    destruct (k_fd k); [|injection H as <- <-; apply SAME; reflexivity]. apply some_inj in H. unfold s_listen in H.
    destruct (k_role k) eqn:R; try (injection H as <- <-; apply SAME; reflexivity); [destruct (k_name k); [|injection H as <- <-; apply SAME; reflexivity]|]; injection H as <- <-;
      intros k' q' lim' K' R'; cbn in K'; cbn [listen1]; rewrite (Z.eqb_sym x y); (destruct (Z.eqb_spec y x); [|eauto]); injection K' as <-; injection R' as <- <-; reflexivity.
  - unfold s_with in H. destruct (ks S x) as [k|] eqn:K; [|injection H as <- <-; apply SAME; reflexivity].
    destruct (k_fd k); [|injection H as <- <-; apply SAME; reflexivity]. unfold s_connect in H.
    destruct (k_role k) eqn:R; destruct a as [p|]; try (injection H as <- <-; apply SAME; reflexivity).
    + destruct (owner _ _ _) as [z|e] eqn:O; [|injection H as <- <-; apply SAME; reflexivity]. destruct (Z.eqb_spec z x) as [|NY]; [discriminate|].
      destruct (ks S z) as [srv|] eqn:Y; [|discriminate]. destruct (k_role srv) as [|q lim| | |] eqn:RS; try (injection H as <- <-; apply SAME; reflexivity).
      destruct (Z.leb_spec lim (blen q)); [injection H as <- <-; apply SAME; reflexivity|]. injection H as <- <-.
      intros k' q' lim'. cbn. destruct (Z.eqb_spec y x) as [->|]; [intros E R'; injection E as <-; discriminate R'|].
      destruct (Z.eqb_spec y z) as [->|]; [intros E R'; injection E as <-; injection R' as <- <-; eauto|].
      destruct (Z.eqb_spec y (ks_next S)) as [->|]; [intros E R'; injection E as <-; discriminate R'|eauto].
    + destruct (owner _ _ _) as [z|e] eqn:O; injection H as <- <-; [|apply SAME; reflexivity].
      eapply PUT; [exact K|reflexivity|reflexivity|right; discriminate].
  - unfold s_with in H. destruct (ks S x) as [k|] eqn:K; [|injection H as <- <-; apply SAME; reflexivity].
    destruct (k_fd k); [|injection H as <- <-; apply SAME; reflexivity]. unfold s_accept in H.
    destruct (k_role k) as [|[|c q] lim| | |] eqn:R; try (injection H as <- <-; apply SAME; reflexivity).
    destruct (ks S c) as [ch|] eqn:C; [|discriminate]. destruct (k_role ch) eqn:RC; try discriminate. injection H as <- <-.
    intros k' q' lim'. cbn. destruct (Z.eqb_spec y c) as [->|].
    { intros E RR. injection E as <-. cbn in RR. congruence. }
    destruct (Z.eqb_spec y x) as [->|]; [intros E RR; injection E as <-; injection RR as <- <-; eauto|eauto].
  - unfold s_with in H. destruct (ks S x) as [k|]; [destruct (k_fd k)|]; injection H as <- <-; apply SAME; reflexivity.
  - unfold s_with in H. destruct (ks S x) as [k|]; [destruct (k_fd k)|]; injection H as <- <-; apply SAME; reflexivity.
  - unfold s_with in H. destruct (ks S x) as [k|] eqn:K; [destruct (k_fd k)|]; injection H as <- <-; try (apply SAME; reflexivity).
    eapply PUT; [exact K|reflexivity|reflexivity|left; reflexivity].
Qed.
Lemma limit_all ops S evs : Forall clean ops -> history k_init ops = Some (S, evs) ->
  forall y k q lim, ks S y = Some k -> k_role k = KListen q lim -> exists n, backlog y evs = Some n /\ lim = queue_size n.
Proof.
  apply (history_ind (fun S evs => forall y k q lim, ks S y = Some k -> k_role k = KListen q lim -> exists n, backlog y evs = Some n /\ lim = queue_size n)); clear.
  - intros y k q lim K. discriminate K.
  - intros S evs o S' r KI KI' IH C ST y k q lim K R. rewrite backlog_snoc. pose proof (step_limit S o S' r y KI ST k q lim K R) as L.
    destruct (listen1 y (S, o, r)) as [n|]; [eauto|]. destruct L as (k0 & q0 & K0 & R0). eauto.
Qed.

(** A connect to a listening socket succeeds if its queue is not full. *)
Lemma connect_law ops w outs S evs x k p y ky q lim w' r ns : ran ops w outs S evs -> ks S x = Some k -> k_fd k = true -> k_role k = KNew ->
  owner S (k_type k) p = inl y -> ks S y = Some ky -> k_role ky = KListen q lim -> step w (Connect x (AUnix p)) = Some (w', r, ns) ->
  exists n, backlog y evs = Some n /\
    let waiting := Z.of_nat (length (arrivals y evs)) - Z.of_nat (length (accepts y evs)) in
    0 <= waiting <= 4097 /\ r = if queue_size n <=? waiting then would_block k false y WAllow else ROk.
Proof.
  intros R K FD RK O KY RY E. destruct (ran_step _ _ _ _ _ (Connect x (AUnix p)) _ _ _ R Logic.I E) as (S' & ST & _). destruct R as (C & RN & H).
  destruct (limit_all ops S evs C H y ky q lim KY RY) as (n & B & ->). exists n. split; auto.
  pose proof (queued_all ops S evs C H y) as Q. rewrite KY, RY in Q. destruct Q as (Q & _ & QL). intro waiting.
  assert (W : waiting = blen q) by (unfold waiting; rewrite Q, app_length, map_length; unfold blen; lia). rewrite W. split; [unfold blen in *; lia|].
  cbn in ST. unfold s_with in ST. rewrite K, FD in ST. unfold s_connect in ST. rewrite RK, O in ST. destruct (y =? x); [discriminate|]. rewrite KY, RY in ST.
  destruct (queue_size n <=? blen q); congruence.
Qed.
(** A name can be taken unless an open socket of the same kind has it. *)
Definition in_use (S : kstate) (evs : list event) (t : utype) (n : list Z) : Prop :=
  exists z kz, named z n evs /\ ks S z = Some kz /\ gone kz = false /\ k_type kz = t.
Lemma in_use_taken ops S evs t n : Forall clean ops -> history k_init ops = Some (S, evs) -> KInv S -> (in_use S evs t n <-> taken S t n = true).
Proof.
  intros C H KI. destruct (owners_all ops S evs C H) as (O1 & O2). unfold taken. split.
  - intros (z & kz & N & K & G & <-). destruct (O1 z n N) as (k & K1 & [B|(_ & B)]); assert (k = kz) by congruence; subst; [congruence|]. rewrite B. reflexivity.
  - destruct (ks_names S t n) as [z|] eqn:E; [|discriminate]. intros _. destruct (ki_name S KI t n z E) as (k & K & T & G & _). exists z, k. split; eauto.
Qed.
Lemma bind_law ops w outs S evs x k n d w' r ns : ran ops w outs S evs -> ks S x = Some k -> k_fd k = true ->
  match k_role k with KNew | KGram _ => True | _ => False end -> k_name k = None -> step w (Bind x (AUnix (0 :: n)) d) = Some (w', r, ns) ->
  (r = RErr EADDRINUSE /\ in_use S evs (k_type k) n) \/ (r = ROk /\ ~ in_use S evs (k_type k) n).
Proof.
  intros R K FD RK NM E. destruct (ran_step _ _ _ _ _ (Bind x (AUnix (0 :: n)) d) _ _ _ R Logic.I E) as (S' & ST & _).
  destruct (ran_reach _ _ _ _ _ R) as (_ & _ & _ & KI & _). destruct R as (C & RN & H). pose proof (in_use_taken ops S evs (k_type k) n C H KI) as U.
  cbn in ST. unfold s_with in ST. rewrite K, FD in ST. unfold s_bind in ST. rewrite NM in ST. rewrite U.
  destruct (k_role k); try contradiction; destruct (taken S (k_type k) n); injection ST as <- <-; auto.
Qed.
Lemma autobind_law ops w outs S evs x k d w' r ns : ran ops w outs S evs -> ks S x = Some k -> k_fd k = true ->
  match k_role k with KNew | KGram _ => True | _ => False end -> k_name k = None -> step w (Bind x (AUnix []) d) = Some (w', r, ns) ->
  (r = ROk /\ exists n w2 ns2, five n /\ ~ in_use S evs (k_type k) n /\ step w' (SockName x) = Some (w2, RAddr (0 :: n), ns2)) \/
  (r = RErr EADDRINUSE /\ forall n, five n -> in_use S evs (k_type k) n).
Proof.
  intros R K FD RK NM E. destruct (ran_step _ _ _ _ _ (Bind x (AUnix []) d) _ _ _ R Logic.I E) as (S' & ST & R').
  destruct (ran_reach _ _ _ _ _ R) as (_ & _ & _ & KI & _). destruct (ran_reach _ _ _ _ _ R') as (_ & I' & A' & _). destruct R as (C & RN & H).
  pose proof (fun n => in_use_taken ops S evs (k_type k) n C H KI) as U.
  cbn in ST. unfold s_with in ST. rewrite K, FD in ST. unfold s_bind in ST. rewrite NM in ST.
  pose proof (autobind_spec (taken S (k_type k)) d) as AS.
  assert (ST' : (match autobind_name (taken S (k_type k)) d with Some n => (k_claim_name S x k n, ROk) | None => (S, RErr EADDRINUSE) end) = (S', r)).
  { destruct (k_role k); try contradiction; congruence. }
  clear ST. destruct (autobind_name (taken S (k_type k)) d) as [n|]; injection ST' as <- <-.
  - left. split; auto. pose proof (step_ok w' (k_claim_name S x k n) (SockName x) I' A' Logic.I) as SN. cbn in SN. unfold s_with in SN. cbn in SN.
    rewrite Z.eqb_refl in SN. cbn in SN. rewrite FD in SN. destruct SN as (w2 & ns2 & SN & _). exists n, w2, ns2. split; [apply AS|]. split; [|exact SN].
    rewrite U. destruct AS as (_ & ->). discriminate.
  - right. split; auto. intros n F. apply U, AS, F.
Qed.
(** Connecting and sending by name reach the open socket that has the name. *)
Lemma owner_law ops w outs S evs t n : ran ops w outs S evs ->
  match owner S t (0 :: n) with
  | inl y => exists ky, named y n evs /\ ks S y = Some ky /\ gone ky = false /\ k_type ky = t
  | inr e => e = ECONNREFUSED /\ ~ in_use S evs t n
  end.
Proof.
  intros R. destruct (ran_reach _ _ _ _ _ R) as (_ & _ & _ & KI & _). destruct R as (C & RN & H). pose proof (in_use_taken ops S evs t n C H KI) as U.
  destruct (owners_all ops S evs C H) as (_ & O2). cbn. unfold taken in U. destruct (ks_names S t n) as [y|] eqn:E.
  - destruct (ki_name S KI t n y E) as (k & K & T & G & _). exists k. split; eauto.
  - split; auto. rewrite U. discriminate.
Qed.
(** Connections are accepted in the order in which they were made, each once. *)
Lemma accept_law ops w outs S evs x k q lim : ran ops w outs S evs -> ks S x = Some k -> k_role k = KListen q lim ->
  arrivals x evs = accepts x evs ++ map (fun c => (c, from_of S c)) q.
Proof. intros (C & _ & H) K R. pose proof (queued_all ops S evs C H x) as Q. rewrite K, R in Q. apply Q. Qed.
(** Exactly the calls by which a socket reaches itself crash. *)
Lemma crash_law ops : Forall clean ops -> (run init ops = None <->
  exists ops1 o ops2 w outs S evs, ops = ops1 ++ o :: ops2 /\ ran ops1 w outs S evs /\ to_self S o).
Proof.
  intro C. split.
  - intro R. destruct (crash_run ops C R) as (ops1 & o & ops2 & w & outs & S & evs & E & RN & ST). exists ops1, o, ops2, w, outs, S, evs. split; auto. split; auto.
    apply (crash S o); auto. apply (ran_reach _ _ _ _ _ RN).
  - intros (ops1 & o & ops2 & w & outs & S & evs & -> & RN & T). apply (crash S o) in T; [|apply (ran_reach _ _ _ _ _ RN)].
    apply Forall_app in C as (_ & C). inversion C as [|? ? CO _]; subst. pose proof (run_snoc _ _ _ _ _ RN o CO T) as R.
    clear - R. revert R. generalize init as w0. induction ops1 as [|p ops1 IH]; intros w0 R; cbn [run app] in *.
    + destruct (step w0 o) as [[[w1 r1] n1]|]; ob; auto. ob_in R. discriminate.
    + destruct (step w0 p) as [[[w1 r1] n1]|]; ob; auto. ob_in R. destruct (run w1 (ops1 ++ [o])) as [[w2 outs2]|] eqn:E; [ob_in R; discriminate|]. rewrite (IH _ E). reflexivity.
Qed.
Lemma bits_law ops w outs S evs x s : ran ops w outs S evs -> sock w x = Some s -> exists k, ks S x = Some k /\
  f_closed (us_bits s) = gone k /\ f_readable (us_bits s) = says_readable S k /\ f_allow (us_bits s) = says_allow k /\
  (f_writable (us_bits s) = says_writable S x k \/ (untouched S x k = true /\ f_writable (us_bits s) = false)).
Proof.
  intros R X. destruct (ran_reach _ _ _ _ _ R) as (_ & I & A & _). exists (abs s). split; [rewrite (proj1 A), X; reflexivity|]. apply (bits_say w S x s I A X).
Qed.
Lemma bound_law ops w outs S evs x k : ran ops w outs S evs -> ks S x = Some k ->
  match k_role k with KGram _ => True | KConn y _ => is_gone S y = false | _ => False end -> 0 <= in_flight S x <= 212992.
Proof.
  intros R K O. destruct (ran_reach _ _ _ _ _ R) as (_ & _ & _ & KI & _). split; [apply flight_pos|]. apply (ki_flight S KI x k K O).
Qed.
