(** C36 and C38: a listening TCP socket, whatever packets arrive. *)
From Verif Require Import Base SeqModel SeqSpec TcpBufModel TcpBufSpec TcpConnModel TcpConnSpec TcpSoloSpec TcpStateModel TcpStateSpec TcpListenSpec TcpListenFacts TcpListenShake TcpStateFacts.

(** A connection that was not handed out yet behaves as a socket of its own that began with a SYN that arrived here, and gets only
    packets that arrived here from its peer; no two connections have the same addresses. *)
Theorem C36_children : forall pu sc g, hears pu sc g ->
  (forall k t a, kid (g_l g) k = Some (t, a) -> kin (phase_of t) = true /\ exists s, own pu sc g k t a s) /\
  (forall j k t u a, kid (g_l g) j = Some (t, a) -> kid (g_l g) k = Some (u, a) -> j = k).
Proof. exact kids_main. Qed.
Print Assumptions C36_children.

(** Connections are handed out in the order in which they were made, each at most once; those that ended before
    are left out. *)
Theorem C36_fifo : forall pu sc g, hears pu sc g ->
  NoDup (g_made g) /\ (forall k, made_at (g_l g) k = true -> In k (g_made g)) /\ (forall k, In k (g_given g) -> kid (g_l g) k = None) /\
  g_given g ++ waiting g = filter (fun k => listed k (g_given g) || made_at (g_l g) k) (g_made g).
Proof. exact fifo_main. Qed.
Print Assumptions C36_fifo.

(** Accepting does not panic; it hands out the connection that has waited longest, and touches no other; it
    fails only if none waits; the socket polls as ready exactly if one waits. *)
Theorem C36_accept : forall pu sc g, hears pu sc g -> exists g', lact g LAccept = Some g' /\
  match waiting g with
  | [] => g_l g' = g_l g /\ g_given g' = g_given g /\ l_accept_call (g_l g) = Some (g_l g, Err ENothingToAccept) /\ p_ready (l_poll (g_l g)) = false
  | k :: rest => exists t a, kid (g_l g) k = Some (t, a) /\ l_accept_call (g_l g) = Some (g_l g', Ok t) /\ p_ready (l_poll (g_l g)) = true /\
      g_given g' = g_given g ++ [k] /\ waiting g' = rest /\ l_max (g_l g') = l_max (g_l g) /\ l_err (g_l g') = l_err (g_l g) /\ forall j, kid (g_l g') j = if j =? k then None else kid (g_l g) j
  end.
Proof. exact accept_main. Qed.
Print Assumptions C36_accept.

(** What a packet does. *)
Theorem C36_push : forall pu sc g h p l' r, hears pu sc g -> l_push (g_now g) (g_l g) h p = Some (l', r) -> heard (g_now g) (g_l g) h p l' r.
Proof. exact push_main. Qed.
Print Assumptions C36_push.

(** A SYN opens a connection unless a queue is full, and is answered by a SYN that acknowledges it; an acknowledgement
    of that makes the connection, which is handed out after those that wait already. *)
Theorem C36_answers : forall pu sc g h, hears pu sc g -> wire h [] -> h_syn h = true -> h_rst h = false -> h_ack h = false -> h_fin h = false -> 0 < h_win h ->
  who (g_l g) (h_src h, h_dst h) = None -> l_full (g_l g) = false -> q_full (g_l g) = false ->
  exists g' k t t' h', lact g (LPush h []) = Some g' /\ adds (g_l g) k t (h_src h, h_dst h) (g_l g') /\ half_open t = true /\ t_pop t = Some (t', Ok (h', [])) /\
    h_syn h' = true /\ h_ack h' = true /\ h_rst h' = false /\ h_fin h' = false /\ h_seq h' = 0 /\ h_acknum h' = (h_seq h + 1) mod 4294967296 /\ h_src h' = h_dst h /\ h_dst h' = h_src h.
Proof. exact answers_main. Qed.
Print Assumptions C36_answers.
Theorem C36_made : forall pu sc g k t a s h p h0, hears pu sc g -> kid (g_l g) k = Some (t, a) -> own pu sc g k t a s -> half_open t = true -> sc = false \/ In k (g_spoke g) -> l_full (g_l g) = false ->
  wire h p -> (h_src h, h_dst h) = a -> h_rst h = false -> h_syn h = false -> h_fin h = false -> h_ack h = true -> concat p = [] ->
  opening (pkts s) = Some h0 -> ~ fin_early s -> ~ syn_acked s -> h_seq h = (h_seq h0 + 1 + s_taken s) mod 4294967296 -> h_acknum h = 1 ->
  exists g', lact g (LPush h p) = Some g' /\ waiting g' = waiting g ++ [k] /\ g_given g' = g_given g /\ forall j, j <> k -> kid (g_l g') j = kid (g_l g) j.
Proof. exact made_by. Qed.
Print Assumptions C36_made.

(** Listening again changes the backlog (which is one more than asked for), nothing else. *)
Theorem C36_listen : forall pu sc g n, hears pu sc g -> exists g', lact g (LListen n) = Some g' /\ l_max (g_l g') = Z.min (n + 1) 4294967295 /\ l_err (g_l g') = l_err (g_l g) /\ g_made g' = g_made g /\ g_given g' = g_given g /\ waiting g' = waiting g /\
  l_poll (g_l g') = l_poll (g_l g) /\ l_wants (g_l g') = l_wants (g_l g) /\ forall k, kid (g_l g') k = kid (g_l g) k.
Proof. exact listen_main. Qed.
Print Assumptions C36_listen.

(** With a backlog of [n] there are never [2 n] connections that are not handed out. *)
Theorem C36_backlog : forall pu sc n strict g, modest pu sc n strict g -> zlen (kids (g_l g)) <= 2 * n - 1.
Proof. exact queue_main. Qed.
Print Assumptions C36_backlog.

(** No more connections wait to be handed out than the backlog allows, if no SYN that opens a
    connection has the ACK flag. *)
Theorem C36_queue_partial : forall pu sc n g, modest pu sc n true g -> n_made (g_l g) <= n.
Proof. exact made_main. Qed.
Print Assumptions C36_queue_partial.

(** The socket asks to send exactly if some connection does. It sends what one of its connections sends, to its peer;
    there is no data in it, and the other connections do not change. *)
Theorem C36_wants : forall pu sc g, hears pu sc g -> l_wants (g_l g) = true <-> exists k t a, kid (g_l g) k = Some (t, a) /\ t_wants t = Some true.
Proof. exact wants_main. Qed.
Print Assumptions C36_wants.
Theorem C36_pop : forall pu sc g l' r, hears pu sc g -> l_pop (g_l g) = Some (l', r) ->
  l_max l' = l_max (g_l g) /\ l_err l' = l_err (g_l g) /\
  match r with
  | Ok (h, p) => l_wants (g_l g) = true /\ concat p = [] /\ exists k t t', kid (g_l g) k = Some (t, (h_dst h, h_src h)) /\ t_pop t = Some (t', Ok (h, p)) /\ becomes (g_l g) k t' l'
  | Err e => l_wants (g_l g) = false /\ e = ENoPacket /\ l' = g_l g /\ forall k t a, kid (g_l g) k = Some (t, a) -> t_wants t = Some false
  end.
Proof. exact pop_main. Qed.
Print Assumptions C36_pop.

(** No connection is left out: of as many packets as there are connections, one is from each that asks to
    send. *)
Theorem C36_fair : forall pu sc g g' out k t a, hears pu sc g -> pulls (length (l_children (g_l g))) g = Some (g', out) -> kid (g_l g) k = Some (t, a) -> t_wants t = Some true ->
  exists h p, In (h, p) out /\ (h_dst h, h_src h) = a.
Proof. exact fair_main. Qed.
Print Assumptions C36_fair.

(** Closing the socket sends a RST to the peer of each connection that was not handed out, and to nobody else. *)
Theorem C36_close : forall pu sc g t, hears pu sc g -> l_close (g_l g) = Some t ->
  (forall k u a, kid (g_l g) k = Some (u, a) -> is_pconn u) /\ t_err t = l_err (g_l g) /\ t_timers t = [] /\
  match l_children (g_l g) with
  | [] => t_sock t = Closed (rq_new 0) false
  | ch => exists hs, t_sock t = Rst hs false /\ forallb h_rst hs = true /\ map (fun h => (h_dst h, h_src h)) hs = map (fun x => snd (snd x)) ch
  end.
Proof. exact close_main. Qed.
Print Assumptions C36_close.

(** No packet, timer or call makes the socket panic, provided that a SYN that opens a connection is no RST and that,
    with window scaling, it has no ACK flag and grants a window, and that packets and timers of a connection come after its SYN was sent. *)
Theorem C38_listener_partial : forall pu sc g e, careful pu sc g -> lallows pu g e -> lsane sc g e -> lact g e <> None.
Proof. exact lsafe_main. Qed.
Print Assumptions C38_listener_partial.
(** Closing does not panic, provided that no connection is being reset and that, with window scaling, each sent its SYN. *)
Theorem C38_close_partial : forall pu sc g, hears pu sc g -> (forall k t a, kid (g_l g) k = Some (t, a) -> is_pconn t /\ (sc = false \/ In k (g_spoke g))) -> l_close (g_l g) <> None.
Proof. exact close_total. Qed.
Print Assumptions C38_close_partial.

(** ** Cases *)
Definition seg (src : Z) (syn fin rst ack : bool) (seq acknum : Z) : header :=
  {| h_src := src; h_dst := 65537; h_syn := syn; h_fin := fin; h_rst := rst; h_ack := ack; h_seq := seq; h_acknum := acknum; h_win := 1000; h_scale := None |}.
Definition syn (i : Z) : lev := LPush (seg i true false false false (100 * i) 0) [].
Definition ack (i : Z) : lev := LPush (seg i false false false true (100 * i + 1) 1) [].
Definition rst (i : Z) : lev := LPush (seg i false false true false (100 * i + 1) 0) [].
(** Three peers; the second is made first, the third before the first; the third resets, the others
    are handed out. *)
Definition three : list lev := [syn 2; syn 3; LPop; LPop; ack 3; syn 4; LPop; ack 4; ack 2].
Example C36_fifo_case : exists g, hears true true g /\ (g_made g = [1; 2; 0] /\ waiting g = [1; 2; 0] /\ g_given g = [] /\ map snd (map snd (l_children (g_l g))) = [(2, 65537); (3, 65537); (4, 65537)] /\
  match lexec true g [rst 4; LAccept; LAccept] with Some g' => g_made g' = [1; 2; 0] /\ g_given g' = [1; 0] /\ waiting g' = [] | None => False end).
Proof. apply (lrun_case true 4 three). vm_compute. repeat split; reflexivity. Qed.
Example C36_accept_case : exists g, hears true true g /\ (waiting g = [1; 2; 0] /\ p_ready (l_poll (g_l g)) = true /\
  match lact g LAccept with Some g' => waiting g' = [2; 0] /\ kids (g_l g') = [0; 2] | None => False end).
Proof. apply (lrun_case true 4 three). vm_compute. repeat split; reflexivity. Qed.
(** Both queues full: a SYN is dropped, and so is an acknowledgement. *)
Example C36_push_case : exists g, hears true true g /\ (l_full (g_l g) = true /\ n_made (g_l g) = 2 /\ n_rest (g_l g) = 1 /\
  match lact g (syn 6), lact g (ack 4), lact g LAccept with
  | Some g1, Some g2, Some g3 => g_l g1 = g_l g /\ g_l g2 = g_l g /\ match lact g3 (ack 4) with Some g4 => waiting g4 = [1; 2] | None => False end
  | _, _, _ => False
  end).
Proof. apply (lrun_case true 1 [syn 2; syn 3; LPop; LPop; ack 2; syn 4; LPop; ack 3]). vm_compute. repeat split; reflexivity. Qed.
(** The hypotheses of [C36_made]: the connection's own socket began with the SYN, and sent its answer. *)
Definition syn2 : header := seg 2 true false false false 200 0.
Example C36_made_case : exists g t s, hears true true g /\ kid (g_l g) 0 = Some (t, (2, 65537)) /\ own true true g 0 t (2, 65537) s /\ half_open t = true /\ In 0 (g_spoke g) /\ l_full (g_l g) = false /\ waiting g = [1] /\
  opening (pkts s) = Some syn2 /\ ~ fin_early s /\ ~ syn_acked s /\ s_taken s = 0 /\ match lact g (ack 2) with Some g' => waiting g' = [1; 0] | None => False end.
Proof.
  enough (exists g, hears true true g /\ exists s, life true true s /\ (kid (g_l g) 0 = Some (s_tcp s, (2, 65537)) /\ s_now s = g_now g /\ s_addr s = Some (65537, 2) /\ syn_sent s /\ (s_wrote s = [] /\ s_got s = [] /\ s_shut s = false) /\
    s_in s = [(SynReceived, (syn2, []))] /\ In (syn2, []) (g_in g) /\ half_open (s_tcp s) = true /\ In 0 (g_spoke g) /\ l_full (g_l g) = false /\ waiting g = [1] /\ opening (pkts s) = Some syn2 /\ s_taken s = 0 /\
    match lact g (ack 2) with Some g' => waiting g' = [1; 0] | None => False end)) as (g & H & s & L & A1 & A2 & A3 & A4 & A5 & A6 & A7 & A8 & A9 & A10 & A11 & A12 & A13 & A14).
  { exists g, (s_tcp s), s. split; [exact H|]. split; [exact A1|]. split; [|split; [exact A8|split; [exact A9|split; [exact A10|split; [exact A11|split; [exact A12|split; [|split; [|split; [exact A13|exact A14]]]]]]]]].
    - constructor; auto. intros h p I. unfold pkts in I. rewrite A6 in I. destruct I as [I|[]]. injection I as <- <-. auto.
    - intros (k & h & p & I & _ & F). rewrite A6 in I. destruct I as [I|[]]. injection I as <- <- <-. discriminate F.
    - intros (h & p & n & I & F & _). unfold pkts in I. rewrite A6 in I. destruct I as [I|[]]. injection I as <- <-. discriminate F. }
  apply (lrun_case true 4 [syn 2; syn 3; LPop; LPop; ack 3]).
  destruct (lrun true 4 [syn 2; syn 3; LPop; LPop; ack 3]) as [g|] eqn:E; [|vm_compute in E; discriminate E]. apply (vchild_case true syn2 [] [VPop]). vm_compute in E. injection E as <-. vm_compute. repeat split; auto.
  eexists. eexists. split; [left; reflexivity|reflexivity].
Qed.
Lemma lmodest_exec n st : forall l g g' pu sc, modest pu sc n st g -> forallb (fun e => match e with LListen m => backlog_of m <=? n | LPush h _ => negb (st && h_syn h && h_ack h) | _ => true end) l = true -> lexec pu g l = Some g' -> modest pu sc n st g'.
Proof.
  induction l as [|e l IH]; intros g g' pu sc M F E; cbn in E; [injection E as <-; exact M|]. cbn in F. apply andb_prop in F. destruct F as (F1 & F2). destruct (lallowsb pu g e) eqn:A; cbn in E; [|discriminate E].
  destruct (lact g e) as [g1|] eqn:L; cbn in E; [|discriminate E]. apply (IH g1 g' pu sc); [|exact F2|exact E]. apply (MStep pu sc n st g e g1 M (lallowsb_ok _ _ _ A)); [|exact L]. destruct e; cbn; try exact I; [|now apply Z.leb_le].
  intros -> _ H. rewrite H in F1. cbn in F1. now destruct (h_ack h).
Qed.
Lemma modest_case sc n st l (P : hall -> Prop) : 0 <= n <= U32_MAX -> forallb (fun e => match e with LListen m => backlog_of m <=? backlog_of n | LPush h _ => negb (st && h_syn h && h_ack h) | _ => true end) l = true ->
  match lexec true (opened sc None n 0) l with Some g => P g | None => False end -> exists g, modest true sc (backlog_of n) st g /\ P g.
Proof.
  intros N F X. destruct (lexec true (opened sc None n 0) l) as [g|] eqn:E; [|contradiction X]. exists g. split; [|exact X]. apply (lmodest_exec _ _ l (opened sc None n 0)); [apply MStart; [exact N|lia]|exact F|exact E].
Qed.
Example C36_backlog_case : exists g, modest true true 2 true g /\ (kids (g_l g) = [0; 1; 2] /\ n_made (g_l g) = 1).
Proof. apply (modest_case true 1 true [syn 2; syn 3; LPop; LPop; ack 2; syn 4]); [vm_compute; split; discriminate|reflexivity|vm_compute; auto]. Qed.
Example C36_pop_case : exists g, hears true true g /\ (kids (g_l g) = [0; 1] /\ l_wants (g_l g) = true /\
  match pulls 2 g with Some (_, [(h, _); (h', _)]) => h_dst h = 2 /\ h_syn h = true /\ h_acknum h = 201 /\ h_dst h' = 3 /\ h_syn h' = true /\ h_acknum h' = 301 | _ => False end).
Proof. apply (lrun_case true 4 [syn 2; syn 3]). vm_compute. repeat split; reflexivity. Qed.
Example C36_close_case : exists g, hears true true g /\ (kids (g_l g) = [0; 1; 2] /\
  match l_close (g_l g) with Some t => match t_sock t with Rst hs _ => map h_dst hs = [2; 3; 4] | _ => False end | None => False end).
Proof. apply (lrun_case true 4 three). vm_compute. repeat split; reflexivity. Qed.

(** ** What goes wrong *)
(** A SYN that acknowledges our SYN before it was sent opens a connection that is made without an acknowledgement that could be dropped: the queue grows
    beyond the backlog. *)
Theorem C36_queue_refuted : exists g, modest true false 2 false g /\ n_made (g_l g) = 3.
Proof.
  apply (modest_case false 1 false [LPush (seg 9 true false false true 900 1) []; syn 2; LPop; LPop; ack 2; syn 3; LPop; ack 3; LPush (seg 9 false false false false 901 0) []]);
    [vm_compute; split; discriminate|reflexivity|vm_compute; reflexivity].
Qed.
Print Assumptions C36_queue_refuted.
(** One packet to a listening socket: a SYN that is a RST too; with window scaling, a SYN that acknowledges our SYN, and one without a window. *)
Theorem C38_syn_rst_refuted : forall sc, exists g h, hears true sc g /\ wire h [] /\ kids (g_l g) = [] /\ h_syn h = true /\ lact g (LPush h []) = None.
Proof.
  intros sc. exists (opened sc None 4 0), (seg 2 true false true false 200 0). split; [apply HStart; vm_compute; split; discriminate|]. split; [apply wireb_ok; reflexivity|]. destruct sc; vm_compute; auto.
Qed.
Print Assumptions C38_syn_rst_refuted.
Theorem C38_syn_ack_refuted : exists g h, hears true true g /\ wire h [] /\ kids (g_l g) = [] /\ h_syn h = true /\ h_ack h = true /\ h_rst h = false /\ lact g (LPush h []) = None.
Proof.
  exists (opened true None 4 0), (seg 2 true false false true 200 1). split; [apply HStart; vm_compute; split; discriminate|]. split; [apply wireb_ok; reflexivity|]. vm_compute. repeat split; reflexivity.
Qed.
Print Assumptions C38_syn_ack_refuted.
Theorem C38_syn_window_refuted : exists g h, hears true true g /\ wire h [] /\ kids (g_l g) = [] /\ h_syn h = true /\ h_ack h = false /\ h_rst h = false /\ h_win h = 0 /\
  (lact g (LPush h []) = None \/ exists g', lact g (LPush h []) = Some g' /\ lact g' LPop = None).
Proof.
  exists (opened true None 4 0), {| h_src := 2; h_dst := 65537; h_syn := true; h_fin := false; h_rst := false; h_ack := false; h_seq := 200; h_acknum := 0; h_win := 0; h_scale := None |}.
  split; [apply HStart; vm_compute; split; discriminate|]. split; [apply wireb_ok; reflexivity|]. split; [reflexivity|]. split; [reflexivity|]. split; [reflexivity|]. split; [reflexivity|]. split; [reflexivity|]. left. vm_compute. reflexivity.
Qed.
Print Assumptions C38_syn_window_refuted.
(** An honest peer: its SYN arrived and the answer waits to be sent; closing the listener panics. *)
Theorem C38_close_refuted : exists g, careful true true g /\ kids (g_l g) = [0] /\ l_close (g_l g) = None.
Proof.
  destruct (lact (opened true None 4 0) (syn 2)) as [g|] eqn:E; [|vm_compute in E; discriminate E]. exists g. split.
  - apply (CStep true true (opened true None 4 0) (syn 2) g); [apply CStart; vm_compute; split; discriminate|apply lallowsb_ok; reflexivity| |exact E]. cbn. intros _. split; [reflexivity|]. right. split; [reflexivity|lia].
  - vm_compute in E. injection E as <-. vm_compute. auto.
Qed.
Print Assumptions C38_close_refuted.
(** A connection is being reset when the listener is closed. *)
Theorem C38_close_rst_refuted : exists g, hears true true g /\ kids (g_l g) = [0] /\ g_spoke g = [0] /\ (forall k t a, kid (g_l g) k = Some (t, a) -> phase_of t = PRst) /\ l_close (g_l g) = None.
Proof.
  enough (exists g, hears true true g /\ (kids (g_l g) = [0] /\ g_spoke g = [0] /\ match l_children (g_l g) with [(_, (t, _))] => phase_of t = PRst | _ => False end /\ l_close (g_l g) = None)) as (g & H & A & B & C & D).
  { exists g. split; [exact H|]. split; [exact A|]. split; [exact B|]. split; [|exact D]. intros k t a K. unfold kid in K. destruct (l_children (g_l g)) as [|(k0 & t0 & a0) [|]]; try contradiction C. rewrite TcpListenProofs.get_cons in K. destruct (FMap.eqb k k0); [injection K as <- <-; exact C|discriminate K]. }
  apply (lrun_case true 4 [syn 2; LPop; LWait 60000000000; LFire 0 0]). vm_compute. repeat split; reflexivity.
Qed.
Print Assumptions C38_close_rst_refuted.
