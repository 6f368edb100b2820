(** C39 to C41: UDP sockets. *)
From Coq Require Import Sorting.Sorted.
From Verif Require Import Base FMap NetqModel IfaceModel IfaceSpec UdpModel UdpSpec UdpWorld.

(* ------------------------------------------------------------------ a host for the examples *)
Definition ME : Z := 184549377.     (* 11.0.0.1 *)
Definition YOU : Z := 184549378.    (* 11.0.0.2 *)
Definition both (ip : Z) : bool := (ip =? ME) || (ip =? YOU).
Definition rng (_ : nat) : Z := 20000.
Definition rng2 (_ : nat) : Z := 20001.
Definition text (a : option addr) (m : list Z) : sargs := mkSa (option_map Some a) m true (Some false).
Definition room (n : Z) : rargs := mkRa n true (Some (false, false, false)).
Definition run (ops : list uop) : host * list (ures * list uevent) :=
  match h_run true both (h_new MinPriority ME) ops with Some x => x | None => (h_new MinPriority ME, []) end.
Definition ran (ops : list uop) : Prop := uhost ME both MinPriority true ops (fst (run ops)) (snd (run ops)).
Definition okb (o : uop) : bool :=
  match o with
  | USocket _ a b => (0 <=? a) && (a <=? U32_MAX) && (0 <=? b) && (b <=? U32_MAX)
  | UBind _ (Some (Some a)) _ | UConnect _ (Some a) _ => (0 <=? fst a) && (fst a <=? U32_MAX) && (0 <=? snd a) && (snd a <=? U16_MAX)
  | USend _ x _ => match sa_addr x with Some (Some a) => (0 <=? fst a) && (fst a <=? U32_MAX) && (0 <=? snd a) && (snd a <=? U16_MAX) | _ => true end
  | URecv _ x => 0 <=? ra_len x
  | UArrive p _ => (fst (up_dst p) =? ME) && (blen (up_data p) <=? U32_MAX)
  | _ => true
  end.
Definition drawn (o : uop) : Prop := match o with UBind _ _ g | UConnect _ _ g | USend _ _ g => forall k, port_range (g k) | _ => True end.
Lemma ok_ops l : forallb okb l = true -> Forall drawn l -> Forall (op_ok ME) l.
Proof.
  intros F D. rewrite forallb_forall in F. rewrite Forall_forall in *. intros o I. specialize (F o I). specialize (D o I).
  destruct o; cbn in F, D |- *; auto; repeat (rewrite ?andb_true_iff, ?Z.leb_le, ?Z.eqb_eq in F); try lia.
  - split; [exact D|]. intros x ->. cbn in F. rewrite !andb_true_iff, !Z.leb_le in F. unfold addr_ok. lia.
  - split; [exact D|]. intros x ->. cbn in F. rewrite !andb_true_iff, !Z.leb_le in F. unfold addr_ok. lia.
  - split; [exact D|]. intros y Q. rewrite Q in F. rewrite !andb_true_iff, !Z.leb_le in F. unfold addr_ok. lia.
Qed.
Definition opt_some {A} (o : option A) : bool := match o with Some _ => true | None => false end.
Lemma me_ok : pub_ok ME.
Proof. unfold pub_ok, loopback, ME, U32_MAX. lia. Qed.
Lemma ran_ok l : forallb okb l = true -> Forall drawn l -> opt_some (h_run true both (h_new MinPriority ME) l) = true -> Z.of_nat (length l) <= U64_MAX -> ran l.
Proof.
  intros F D S L. unfold ran, run. destruct (h_run true both (h_new MinPriority ME) l) as [[h rs]|] eqn:E; [|discriminate].
  split; [exact me_ok|]. split; [now apply ok_ops|]. split; [exact L|exact E].
Qed.
Ltac drawn := repeat (apply Forall_cons; [first [exact I|intros k; unfold port_range, rng, rng2; lia]|]); apply Forall_nil.
Ltac ran := apply ran_ok; [reflexivity|drawn|vm_compute; reflexivity|vm_compute; congruence].

(** Socket 0 serves port 5000; socket 1 sends it a datagram over loopback, then one to the other host. *)
Definition demo : list uop :=
  [USocket false 4096 4096; USocket false 4096 4096; UBind 0 (Some (Some (0, 5000))) rng; USend 1 (text (Some (LOCALHOST, 5000)) [1; 2; 3]) rng;
   USend 1 (text (Some (YOU, 6000)) [7]) rng; UForward Inet 100; UForward Inet 200].
Lemma demo_ran : ran (demo ++ [URecv 0 (room 2)]).
Proof. ran. Qed.
Lemma demo_ran' : ran demo.
Proof. ran. Qed.
Lemma demo_plain : Forall plain demo.
Proof. repeat constructor. cbn. unfold loopback. lia. Qed.

(* ------------------------------------------------------------------ C39 *)
(** Whatever programs do and whatever arrives, a host's UDP sockets behave as mailboxes: results and packets
    are those of the specification [urun]. Each mailbox is read in the order in which it was filled, each
    socket's datagrams leave in the order in which they were sent, all unaltered. Every datagram that sets
    out ends up in one place, once. From one socket to another, and from the network to a socket,
    datagrams stay in order. With the default queueing discipline an interface sends in the order of the calls. *)
Theorem C39_datagrams : forall pub known disc debug ops h rs, uhost pub known disc debug ops h rs ->
  exists ls st, urun pub known disc empty_host ops ls st /\ Forall2 matches rs ls /\
    (forall s, puts s (labels ls) = takes s (labels ls) ++ inbox st s /\ sents s (labels ls) = lefts s (labels ls) ++ outbox st s) /\
    fates (labels ls) = entering ops ls /\
    (forall a b, subseq (conveyed a b ls) (sents a (labels ls))) /\ (forall b, subseq (arrived b ops ls) (arrivals ops)) /\
    (disc = MinPriority -> forall w, StronglySorted Z.lt (numbers w (labels ls))).
Proof. exact datagrams_main. Qed.
Print Assumptions C39_datagrams.
Example C39_datagrams_case : ran (demo ++ [URecv 0 (room 2)]) /\
  map fst (snd (run (demo ++ [URecv 0 (room 2)]))) = [UNum 0; UNum 1; UOk; UNum 3; UNum 1; UOk; UOk; UMsg 2 [1; 2] (LOCALHOST, 20000) true] /\
  concat (map (fun x => wires (snd x)) (snd (run (demo ++ [URecv 0 (room 2)])))) = [mkD (ME, 20000) (YOU, 6000) [7]].
Proof. split; [exact demo_ran|]. split; vm_compute; reflexivity. Qed.

(** What a program reads was sent: it is the beginning of a datagram that arrived from the network, or that a
    program on this host sent with success; the source is that datagram's, and the truncation flag says
    whether something is missing. *)
Theorem C39_genuine : forall pub known disc debug a s x h rs n got from tr e, uhost pub known disc debug (a ++ [URecv s x]) h (rs ++ [(UMsg n got from tr, e)]) ->
  exists d, from = d_from d /\ got = cut (ra_len x) (d_data d) /\ tr = (ra_len x <? size d) /\
    (In d (arrivals a) \/ exists s' x' rng, In (USend s' x' rng, UNum (size d)) (combine a (map fst rs)) /\ sa_data x' = d_data d /\ (sa_addr x' = Some (Some (d_to d)) \/ sa_addr x' = None)).
Proof. exact genuine_main. Qed.
Print Assumptions C39_genuine.
Example C39_genuine_case : exists rs e, uhost ME both MinPriority true (demo ++ [URecv 0 (room 2)]) (fst (run (demo ++ [URecv 0 (room 2)]))) (rs ++ [(UMsg 2 [1; 2] (LOCALHOST, 20000) true, e)]).
Proof.
  exists (removelast (snd (run (demo ++ [URecv 0 (room 2)])))), (snd (last (snd (run (demo ++ [URecv 0 (room 2)]))) (UOk, []))).
  replace (removelast _ ++ _) with (snd (run (demo ++ [URecv 0 (room 2)]))) by (vm_compute; reflexivity). exact demo_ran.
Qed.

(** No panic, if no socket is bound to a loopback address other than 127.0.0.1 and the host's address is
    one of the simulation's. Missing: those sockets (next theorems). *)
Theorem C39_no_panic_partial : forall pub known disc debug ops, pub_ok pub -> Forall (op_ok pub) ops -> Z.of_nat (length ops) <= U64_MAX -> Forall plain ops -> known pub = true ->
  h_run debug known (h_new disc pub) ops <> None.
Proof. exact no_panic_main. Qed.
Print Assumptions C39_no_panic_partial.
Example C39_no_panic_case : Forall (op_ok ME) demo /\ Forall plain demo /\ both ME = true.
Proof. split; [apply demo_ran'|]. split; [exact demo_plain|reflexivity]. Qed.
(** The only panic: a relay forwards a datagram for another host whose source is no host's address. *)
Theorem C39_crash : forall pub known disc debug ops, pub_ok pub -> Forall (op_ok pub) ops -> Z.of_nat (length ops) <= U64_MAX -> h_run debug known (h_new disc pub) ops = None ->
  exists a b w now ls st s k n d r, ops = a ++ UForward w now :: b /\ urun pub known disc empty_host a ls st /\
    ss_sock st s = Some k /\ via k w /\ s_out k = (n, d) :: r /\ fst (d_to d) <> LOCALHOST /\ fst (d_to d) <> pub /\ known (fst (d_to d)) = true /\ known (fst (d_from d)) = false.
Proof. exact crash_main. Qed.
Print Assumptions C39_crash.
(** A socket bound to 127.0.0.2 sends to another host: the datagram waits in the loopback interface, and when
    anything else is sent there the simulation panics. *)
Definition crash : list uop :=
  [USocket false 4096 4096; USocket false 4096 4096; UBind 0 (Some (Some (LOCALHOST + 1, 5000))) rng; USend 0 (text (Some (YOU, 6000)) [7]) rng; UForward Inet 100;
   UBind 1 (Some (Some (LOCALHOST, 5001))) rng; USend 1 (text (Some (LOCALHOST, 5000)) [8]) rng; UForward Lo 200].
Example C39_crash_case : Forall (op_ok ME) crash /\ h_run true both (h_new MinPriority ME) crash = None.
Proof. split; [|vm_compute; reflexivity]. apply ok_ops; [reflexivity|]. drawn. Qed.
Theorem C39_no_panic_refuted : exists pub known disc debug ops, pub_ok pub /\ Forall (op_ok pub) ops /\ known pub = true /\ h_run debug known (h_new disc pub) ops = None.
Proof. exists ME, both, MinPriority, true, crash. destruct C39_crash_case as [A B]. split; [exact me_ok|]. auto. Qed.
Print Assumptions C39_no_panic_refuted.

(** A relay sleeps only if no open or closed socket has anything to send through its interface; from any state its
    forwarding empties their buffers. Missing: loopback addresses other than 127.0.0.1. *)
Theorem C39_idle_partial : forall pub known disc debug ops h rs w, uhost pub known disc debug ops h rs -> Forall plain ops -> h_due h w = false ->
  forall s u, get s (h_socks h) = Some u -> sends_through u w -> mb_msgs (u_send u) = [].
Proof. exact idle_main. Qed.
Print Assumptions C39_idle_partial.
Example C39_idle_case : ran (demo ++ [UForward Inet 300]) /\ h_due (fst (run (demo ++ [UForward Inet 300]))) Inet = false /\ h_due (fst (run demo)) Inet = true.
Proof. split; [ran|]. split; vm_compute; reflexivity. Qed.
Theorem C39_drains_partial : forall pub known disc debug ops h rs w now, uhost pub known disc debug ops h rs -> Z.of_nat (length ops) <= U32_MAX -> Forall plain ops -> known pub = true ->
  exists j h' rs', (j <= length ops + 1)%nat /\ h_run debug known h (repeat (UForward w now) j) = Some (h', rs') /\ h_due h' w = false /\
    forall s u, get s (h_socks h') = Some u -> sends_through u w -> mb_msgs (u_send u) = [].
Proof. exact drains_main. Qed.
Print Assumptions C39_drains_partial.
Example C39_drains_case : ran (firstn 5 demo) /\ option_map (fun u => length (mb_msgs (u_send u))) (get 1 (h_socks (fst (run (firstn 5 demo))))) = Some 2%nat.
Proof. split; [ran|vm_compute; reflexivity]. Qed.
(** With 127.0.0.2: a datagram waits and no relay is about to forward it. *)
Theorem C39_stuck_refuted : exists pub known disc debug ops h rs, uhost pub known disc debug ops h rs /\ known pub = true /\ h_due h Lo = false /\ h_due h Inet = false /\
  exists s u, get s (h_socks h) = Some u /\ mb_msgs (u_send u) <> [].
Proof.
  exists ME, both, MinPriority, true, (firstn 5 crash), (fst (run (firstn 5 crash))), (snd (run (firstn 5 crash))). split; [change (ran (firstn 5 crash)); ran|].
  split; [reflexivity|]. split; [vm_compute; reflexivity|]. split; [vm_compute; reflexivity|]. exists 0.
  destruct (get 0 (h_socks (fst (run (firstn 5 crash))))) as [u|] eqn:G; [|vm_compute in G; discriminate]. exists u. split; [reflexivity|]. vm_compute in G. injection G as <-. discriminate.
Qed.
Print Assumptions C39_stuck_refuted.

(* ------------------------------------------------------------------ C40 *)
(** At most one open socket has a port of an interface. *)
Theorem C40_ports : forall pub known disc debug ops h rs, uhost pub known disc debug ops h rs ->
  forall s1 s2 u1 u2 ip1 ip2 port w, get s1 (h_socks h) = Some u1 -> get s2 (h_socks h) = Some u2 -> b_closed (u_st u1) = false -> b_closed (u_st u2) = false ->
    u_bound u1 = Some (ip1, port) -> u_bound u2 = Some (ip2, port) -> covers pub w ip1 -> covers pub w ip2 -> s1 = s2.
Proof. exact ports_main. Qed.
Print Assumptions C40_ports.
Definition two : list uop :=
  [USocket false 4096 4096; USocket false 4096 4096; USocket false 4096 4096; UBind 0 (Some (Some (LOCALHOST, 5000))) rng; UBind 1 (Some (Some (ME, 5000))) rng; UBind 2 (Some (Some (0, 5000))) rng;
   UClose 0; UClose 1; UBind 2 (Some (Some (0, 5000))) rng].
Example C40_ports_case : ran two /\ map fst (snd (run two)) = [UNum 0; UNum 1; UNum 2; UOk; UOk; UErr EADDRINUSE; UOk; UOk; UOk].
Proof. split; [ran|vm_compute; reflexivity]. Qed.

(** A packet on the network is a datagram that a program on this host sent, and whoever answers to the packet's source
    reaches the same socket, for as long as it is open, however many sockets were bound, connected and closed
    in between. The same holds for a datagram read on the same host. Missing: sockets bound to loopback addresses other than 127.0.0.1. *)
Theorem C40_wire_partial : forall pub known disc debug ops h rs p, uhost pub known disc debug ops h rs -> Forall plain ops -> In (EWire p) (concat (map snd rs)) ->
  exists s x rng, In (USend s x rng, UNum (blen (up_data p))) (combine ops (map fst rs)) /\ sa_data x = up_data p /\ (sa_addr x = Some (Some (up_dst p)) \/ sa_addr x = None) /\ answers known h s (up_src p).
Proof. exact wire_main. Qed.
Print Assumptions C40_wire_partial.
Definition answer : upkt := mkUp (YOU, 6000) (ME, 20000) [9; 9] 0.
Example C40_wire_case : ran demo /\ Forall plain demo /\ In (EWire (mkUp (ME, 20000) (YOU, 6000) [7] 1)) (concat (map snd (snd (run demo)))) /\
  map fst (snd (run (demo ++ [UArrive answer 300; URecv 1 (room 10)]))) = map fst (snd (run demo)) ++ [UOk; UMsg 2 [9; 9] (YOU, 6000) false].
Proof. split; [exact demo_ran'|]. split; [exact demo_plain|]. split; [vm_compute; tauto|vm_compute; reflexivity]. Qed.
Theorem C40_reply_partial : forall pub known disc debug a s x h rs n got from tr e, uhost pub known disc debug (a ++ [URecv s x]) h (rs ++ [(UMsg n got from tr, e)]) -> Forall plain a ->
  (exists d, In d (arrivals a) /\ d_from d = from) \/ exists s', answers known h s' from.
Proof. exact reply_main. Qed.
Print Assumptions C40_reply_partial.
Definition pong : list uop := demo ++ [URecv 0 (room 2); USend 0 (text (Some (LOCALHOST, 20000)) [5]) rng; UForward Inet 300; URecv 1 (room 10)].
Example C40_reply_case : ran pong /\ Forall plain pong /\ skipn 7 (map fst (snd (run pong))) = [UMsg 2 [1; 2] (LOCALHOST, 20000) true; UNum 1; UOk; UMsg 1 [5] (LOCALHOST, 5000) false].
Proof. split; [ran|]. split; [|vm_compute; reflexivity]. repeat constructor. cbn. unfold loopback. lia. Qed.
(** A datagram from a socket bound to 127.0.0.2 can be read, but no answer to its source reaches anyone. *)
Lemma nobody known h q : blen (up_data q) <= U32_MAX -> h_route known h q 0 = Some (h, []) ->
  forallb (fun x => negb (b_closed (u_st (snd x))) && match u_peer (snd x) with None => true | Some _ => false end && (held (mb_msgs (u_recv (snd x))) <? mb_limit (u_recv (snd x)))) (h_socks h) = true ->
  forall s, ~ answers known h s (up_dst q).
Proof.
  intros SZ R F s (u & G & A). rewrite forallb_forall in F. specialize (F _ (get_in _ _ _ G)). cbn [snd] in F. rewrite !andb_true_iff, negb_true_iff, Z.ltb_lt in F. destruct F as [[F1 F2] F3].
  destruct (A q 0 F1 eq_refl SZ) as (h' & e & u' & E & G' & M); [intros x Q; rewrite Q in F2; discriminate|exact F3|].
  rewrite R in E. injection E as <- _. rewrite G in G'. injection G' as <-. apply (f_equal (@length _)) in M. rewrite app_length in M. cbn [length] in M. lia.
Qed.
Theorem C40_reply_refuted : exists pub known disc debug a s x h rs n got from tr e, uhost pub known disc debug (a ++ [URecv s x]) h (rs ++ [(UMsg n got from tr, e)]) /\
  arrivals a = [] /\ forall s', ~ answers known h s' from.
Proof.
  pose (a := [USocket false 4096 4096; UBind 0 (Some (Some (LOCALHOST + 1, 5000))) rng; USocket false 4096 4096; UBind 1 (Some (Some (LOCALHOST, 5001))) rng;
              USend 0 (text (Some (ME, 5002)) [7]) rng; USocket false 4096 4096; UBind 2 (Some (Some (ME, 5002))) rng; USend 1 (text (Some (LOCALHOST, 5009)) [8]) rng; UForward Lo 100; UForward Lo 200]).
  exists ME, both, MinPriority, true, a, 2, (room 9), (fst (run (a ++ [URecv 2 (room 9)]))), (removelast (snd (run (a ++ [URecv 2 (room 9)])))), 1, [7], (LOCALHOST + 1, 5000), false,
    (snd (last (snd (run (a ++ [URecv 2 (room 9)]))) (UOk, []))).
  split; [|split; [reflexivity|]].
  - replace (removelast _ ++ _) with (snd (run (a ++ [URecv 2 (room 9)]))) by (vm_compute; reflexivity). change (ran (a ++ [URecv 2 (room 9)])). subst a. ran.
  - apply (nobody both _ (mkUp (LOCALHOST + 2, 1) (LOCALHOST + 1, 5000) [1] 0)); [vm_compute; congruence|vm_compute; reflexivity|vm_compute; reflexivity].
Qed.
Print Assumptions C40_reply_refuted.

(** After close a socket receives, reads and sends nothing; what it sent before still leaves (C39_drains). *)
Theorem C40_closed : forall pub known disc debug a b h rs s, uhost pub known disc debug (a ++ b) h rs ->
  exists la lb sta stb, urun pub known disc empty_host a la sta /\ urun pub known disc sta b lb stb /\ Forall2 matches rs (la ++ lb) /\
    forall k, ss_sock sta s = Some k -> s_open k = false -> puts s (labels lb) = [] /\ takes s (labels lb) = [] /\ sents s (labels lb) = [].
Proof. exact closed_main. Qed.
Print Assumptions C40_closed.
Definition closing : list uop := firstn 5 demo ++ [UClose 1; UForward Inet 100; UForward Inet 200; UArrive answer 300; URecv 1 (room 10); URecv 0 (room 10)].
Example C40_closed_case : ran closing /\ skipn 5 (map fst (snd (run closing))) = [UOk; UOk; UOk; UOk; UErr EBADF; UMsg 3 [1; 2; 3] (LOCALHOST, 20000) false] /\
  concat (map (fun x => wires (snd x)) (snd (run closing))) = [mkD (ME, 20000) (YOU, 6000) [7]].
Proof. split; [ran|]. split; vm_compute; reflexivity. Qed.
(** The name of a socket bound to any address and connected is the address of its peer. *)
Theorem C40_name_refuted : exists pub known disc debug ops h rs, uhost pub known disc debug ops h rs /\ known pub = true /\ exists ip port, last (map fst rs) UOk = UAddr (ip, port) /\ ~ local_ip pub ip.
Proof.
  pose (l := [USocket false 4096 4096; UBind 0 (Some (Some (0, 5000))) rng; UConnect 0 (Some (YOU, 6000)) rng; UName 0]).
  exists ME, both, MinPriority, true, l, (fst (run l)), (snd (run l)). split; [change (ran l); subst l; ran|]. split; [reflexivity|]. exists YOU, 5000. split; [vm_compute; reflexivity|].
  intros (w & C). destruct w; cbv [covers loopback] in C; unfold YOU, ME in C; lia.
Qed.
Print Assumptions C40_name_refuted.
(** Sending to 0.0.0.0 fails to reach this host, although connecting to it and sending does. *)
Theorem C40_unspecified_refuted : exists pub known disc debug ops1 ops2 h1 rs1 h2 rs2, uhost pub known disc debug ops1 h1 rs1 /\ uhost pub known disc debug ops2 h2 rs2 /\
  last (map fst rs1) UOk = UMsg 1 [7] (LOCALHOST, 20000) false /\ last (map fst rs2) UOk = UWaitReadable /\
  exists a b, ops1 = a ++ [UConnect 1 (Some (0, 5000)) rng; USend 1 (text None [7]) rng] ++ b /\ ops2 = a ++ [USend 1 (text (Some (0, 5000)) [7]) rng] ++ b.
Proof.
  pose (a := [USocket false 4096 4096; USocket false 4096 4096; UBind 0 (Some (Some (0, 5000))) rng]). pose (b := [UForward Lo 100; UForward Inet 100; URecv 0 (room 9)]).
  pose (l1 := a ++ [UConnect 1 (Some (0, 5000)) rng; USend 1 (text None [7]) rng] ++ b). pose (l2 := a ++ [USend 1 (text (Some (0, 5000)) [7]) rng] ++ b).
  exists ME, both, MinPriority, true, l1, l2, (fst (run l1)), (snd (run l1)), (fst (run l2)), (snd (run l2)).
  split; [change (ran l1); subst l1 a b; cbn [app]; ran|]. split; [change (ran l2); subst l2 a b; cbn [app]; ran|]. split; [vm_compute; reflexivity|]. split; [vm_compute; reflexivity|]. exists a, b. auto.
Qed.
Print Assumptions C40_unspecified_refuted.

(* ------------------------------------------------------------------ C41 *)
(** An open socket polls as readable exactly if a datagram waits; as writable exactly if there is room, if no
    program changed the size of a send buffer. *)
Theorem C41_poll : forall pub known disc debug ops h rs, uhost pub known disc debug ops h rs -> forall s u, get s (h_socks h) = Some u -> b_closed (u_st u) = false ->
  b_active (u_st u) = true /\ (b_readable (u_st u) = true <-> mb_msgs (u_recv u) <> []) /\
  (Forall (fun o => ~ resizes o) ops -> (b_writable (u_st u) = true <-> held (mb_msgs (u_send u)) < mb_limit (u_send u))).
Proof. exact poll_main. Qed.
Print Assumptions C41_poll.
Definition full : list uop := [USocket false 2 4096; USend 0 (text (Some (YOU, 6000)) [7; 7; 7]) rng; USend 0 (text (Some (YOU, 6000)) [8]) rng].
Example C41_poll_case : ran full /\ last (map fst (snd (run full))) UOk = UWaitWritable /\ option_map u_st (get 0 (h_socks (fst (run full)))) = Some (mkBits true false false false) /\
  option_map u_st (get 0 (h_socks (fst (run demo)))) = Some (mkBits true true true false).
Proof. split; [ran|]. repeat split; vm_compute; reflexivity. Qed.

(** Listeners of a socket know its state: the last they heard, in any part of a run, is the state at its end. *)
Theorem C41_told : forall pub known disc debug a b h1 ra h rb, uhost pub known disc debug a h1 ra -> uhost pub known disc debug (a ++ b) h (ra ++ rb) ->
  forall s u1, get s (h_socks h1) = Some u1 -> exists u, get s (h_socks h) = Some u /\ u_st u = last (map fst (told s (concat (map snd rb)))) (u_st u1) /\
    ((length (mb_msgs (u_recv u1)) < length (mb_msgs (u_recv u)))%nat -> exists b, In (b, true) (told s (concat (map snd rb))) /\ b_readable b = true).
Proof. exact told_main. Qed.
Print Assumptions C41_told.
(** No wakeup is lost: who found nothing to read is told when there is, and who found no room when there is. *)
Theorem C41_wakes : forall pub known disc debug a b h1 ra h rb s u1 u, uhost pub known disc debug a h1 ra -> uhost pub known disc debug (a ++ b) h (ra ++ rb) ->
  get s (h_socks h1) = Some u1 -> get s (h_socks h) = Some u -> b_closed (u_st u1) = false -> b_closed (u_st u) = false ->
  (mb_msgs (u_recv u1) = [] -> mb_msgs (u_recv u) <> [] -> exists n, In n (told s (concat (map snd rb))) /\ b_readable (fst n) = true /\ snd n = true) /\
  (Forall (fun o => ~ resizes o) (a ++ b) -> mb_limit (u_send u1) <= held (mb_msgs (u_send u1)) -> held (mb_msgs (u_send u)) < mb_limit (u_send u) ->
     exists n, In n (told s (concat (map snd rb))) /\ b_writable (fst n) = true).
Proof. exact wakes_main. Qed.
Print Assumptions C41_wakes.
Definition wait : list uop := [USocket false 2 4096; UBind 0 (Some (Some (0, 5000))) rng; URecv 0 (room 9); USend 0 (text (Some (LOCALHOST, 5000)) [7; 7; 7]) rng].
Example C41_wakes_case : ran wait /\ ran (wait ++ [UForward Inet 100]) /\ snd (run (wait ++ [UForward Inet 100])) = snd (run wait) ++ [(UOk, [ENote 0 (mkBits true false true false) false; ENote 0 (mkBits true true true false) true])].
Proof. split; [ran|]. split; [ran|]. vm_compute; reflexivity. Qed.

(** A larger send buffer makes room, but the socket does not poll as writable and nobody is told. *)
Theorem C41_writable_refuted : exists pub known disc debug ops h rs, uhost pub known disc debug ops h rs /\ exists s u, get s (h_socks h) = Some u /\ b_closed (u_st u) = false /\
  held (mb_msgs (u_send u)) < mb_limit (u_send u) /\ b_writable (u_st u) = false.
Proof.
  pose (l := full ++ [USndBuf 0 4096]). exists ME, both, MinPriority, true, l, (fst (run l)), (snd (run l)). split; [change (ran l); subst l; cbn [app full]; ran|].
  exists 0. destruct (get 0 (h_socks (fst (run l)))) as [u|] eqn:G; [|vm_compute in G; discriminate]. exists u. split; [reflexivity|]. vm_compute in G. injection G as <-. repeat split.
Qed.
Print Assumptions C41_writable_refuted.
(** When a socket is closed it stops being active, readable and writable. *)
Theorem C41_closes_partial : forall pub known disc debug ops h rs s ev, uhost pub known disc debug (ops ++ [UClose s]) h (rs ++ [(UOk, ev)]) ->
  exists u, get s (h_socks h) = Some u /\ u_st u = mkBits false false false true.
Proof. exact closes_main. Qed.
Print Assumptions C41_closes_partial.
Example C41_closes_case : ran (demo ++ [UClose 0]) /\ option_map u_st (get 0 (h_socks (fst (run demo)))) = Some (mkBits true true true false) /\
  option_map u_st (get 0 (h_socks (fst (run (demo ++ [UClose 0]))))) = Some (mkBits false false false true).
Proof. split; [cbn [app demo]; ran|]. split; vm_compute; reflexivity. Qed.
(** It does not stay so: a closed socket polls as readable and writable again when its last datagram leaves. *)
Theorem C41_closed_refuted : exists pub known disc debug ops h rs, uhost pub known disc debug ops h rs /\ exists s u, get s (h_socks h) = Some u /\ b_closed (u_st u) = true /\
  b_readable (u_st u) = true /\ b_writable (u_st u) = true.
Proof.
  pose (l := [USocket false 4096 4096; UBind 0 (Some (Some (0, 5000))) rng; USend 0 (text (Some (LOCALHOST, 5000)) [7]) rng; UForward Inet 100; USend 0 (text (Some (YOU, 6000)) [8]) rng; UClose 0; UForward Inet 200]).
  exists ME, both, MinPriority, true, l, (fst (run l)), (snd (run l)). split; [change (ran l); subst l; ran|].
  exists 0. destruct (get 0 (h_socks (fst (run l)))) as [u|] eqn:G; [|vm_compute in G; discriminate]. exists u. split; [reflexivity|]. vm_compute in G. injection G as <-. repeat split.
Qed.
Print Assumptions C41_closed_refuted.
(** After shutdown of reading, a blocking reader gets end of file, but one that already waits is not told. *)
Theorem C41_shutdown_refuted : exists pub known disc debug ops h rs, uhost pub known disc debug ops h rs /\ exists s x y z rest, ops = rest ++ [URecv s x; UShutdown s true false; URecv s x] /\
  skipn (length rest) rs = [(UWaitReadable, y); (UOk, z); (UEof, [])] /\ told s z = [].
Proof.
  pose (a := [USocket false 4096 4096; UConnect 0 (Some (LOCALHOST, 6000)) rng]). pose (l := a ++ [URecv 0 (room 9); UShutdown 0 true false; URecv 0 (room 9)]).
  exists ME, both, MinPriority, true, l, (fst (run l)), (snd (run l)). split; [change (ran l); subst l a; cbn [app]; ran|].
  exists 0, (room 9), [], [], a. split; [reflexivity|]. split; vm_compute; reflexivity.
Qed.
Print Assumptions C41_shutdown_refuted.
(** The same reader with MSG_DONTWAIT is told to come back later instead of end of file. *)
Theorem C41_dontwait_refuted : exists pub known disc debug ops h rs, uhost pub known disc debug ops h rs /\ exists s rest, ops = rest ++ [UShutdown s true false; URecv s (mkRa 9 true (Some (true, false, false)))] /\
  skipn (length rest) (map fst rs) = [UOk; UErr EWOULDBLOCK].
Proof.
  pose (a := [USocket false 4096 4096; UConnect 0 (Some (LOCALHOST, 6000)) rng]). pose (l := a ++ [UShutdown 0 true false; URecv 0 (mkRa 9 true (Some (true, false, false)))]).
  exists ME, both, MinPriority, true, l, (fst (run l)), (snd (run l)). split; [change (ran l); subst l a; cbn [app]; ran|].
  exists 0, a. split; [reflexivity|]. vm_compute; reflexivity.
Qed.
Print Assumptions C41_dontwait_refuted.
