(** C42 to C46: unix domain sockets. *)
From Verif Require Import Base FMap UnixModel UnixSpec UnixFacts UnixInv UnixWorld UnixNotes UnixReady UnixTraces UnixDeliver UnixWaits UnixNames UnixQueue UnixWritable UnixLaws UnixBacklog.

(* ------------------------------------------------------------------ runs for the examples *)
Definition cleanb (o : uop) : bool := match o with Send _ _ _ _ _ _ (Some _) | Recv _ _ _ _ _ _ (Some _) => false | _ => true end.
Definition w_of (ops : list uop) : world := match run init ops with Some (w, _) => w | None => init end.
Definition outs_of (ops : list uop) : list (ures * list note) := match run init ops with Some (_, outs) => outs | None => [] end.
Definition S_of (ops : list uop) : kstate := match history k_init ops with Some (S0, _) => S0 | None => k_init end.
Definition evs_of (ops : list uop) : list event := match history k_init ops with Some (_, evs) => evs | None => [] end.
Definition opt_some {A} (o : option A) : bool := match o with Some _ => true | None => false end.
Lemma ran_of ops : forallb cleanb ops = true -> opt_some (run init ops) = true -> ran ops (w_of ops) (outs_of ops) (S_of ops) (evs_of ops).
Proof.
  intros C R. assert (F : Forall clean ops).
  { rewrite forallb_forall in C. apply Forall_forall. intros o IN. specialize (C o IN). destruct o; cbn in *; auto; destruct fault; congruence. }
  unfold ran, w_of, outs_of, S_of, evs_of. destruct (run init ops) as [[w outs]|] eqn:E; [|discriminate].
  destruct (reach ops w outs F E) as (S0 & evs & -> & _). auto.
Qed.
(** Decides [linked]. *)
Definition linkb (t : utype) (x y : Z) (e : event) : bool :=
  match e with
  | (_, Pair t' _, RPair a b) => utype_eqb t' t && negb (utype_eqb t UDgram) && (((x =? a) && (y =? b)) || ((x =? b) && (y =? a)))
  | (S0, Connect z (AUnix _), ROk) =>
      match ks S0 z with
      | Some k => match k_role k with KNew => utype_eqb (k_type k) t && (((x =? z) && (y =? ks_next S0)) || ((x =? ks_next S0) && (y =? z))) | _ => false end
      | None => false
      end
  | _ => false
  end.
Lemma linked_of t x y ops : existsb (linkb t x y) (evs_of ops) = true -> linked t x y (evs_of ops).
Proof.
  intro E. apply existsb_exists in E as (e & IN & L). apply Exists_exists. exists e. split; auto. destruct e as [[S0 o] r].
  destruct o; try discriminate L; [destruct r; try discriminate L|destruct a; try discriminate L; destruct r; try discriminate L]; cbn in *.
  - rewrite !Bool.andb_true_iff, Bool.orb_true_iff, !Bool.andb_true_iff, !Z.eqb_eq in L. destruct L as ((L1 & L2) & L3). destruct (utype_eqb_ok t0 t); [|discriminate].
    split; auto. split; auto. intros ->. discriminate L2.
  - destruct (ks S0 x0) as [k|]; [|discriminate]. destruct (k_role k) eqn:R; try discriminate.
    rewrite !Bool.andb_true_iff, Bool.orb_true_iff, !Bool.andb_true_iff, !Z.eqb_eq in L. destruct L as (L1 & L2). destruct (utype_eqb_ok (k_type k) t); [|discriminate].
    exists k. auto.
Qed.
Ltac linked := apply linked_of; vm_compute; reflexivity.
Ltac ran := apply ran_of; vm_compute; reflexivity.
Definition say (x : Z) (m : list Z) : uop := Send x None false true false m None.
Definition hear (x cap : Z) : uop := Recv x false true false false cap None.
Definition name (c : Z) : uaddr := AUnix [0; c].

(** 0 and 1 are a pair of streams; 1 has read some of what 0 sent. *)
Definition talk : list uop := [Pair UStream false; say 0 [1; 2; 3]; hear 1 2; say 0 [4; 5]].
Lemma talk_ran : ran talk (w_of talk) (outs_of talk) (S_of talk) (evs_of talk). Proof. ran. Qed.
Lemma talk_linked : linked UStream 0 1 (evs_of talk). Proof. linked. Qed.
(** 0 listens; 1 and 2 connect; 3 and 4 are their other ends; 3 is accepted. *)
Definition serve : list uop :=
  [Socket UStream false; Bind 0 (name 97) []; Listen 0 1; Socket UStream false; Socket UStream false; Bind 2 (name 98) []; Connect 1 (name 97); Connect 2 (name 97); Accept 0 false].
Lemma serve_ran : ran serve (w_of serve) (outs_of serve) (S_of serve) (evs_of serve). Proof. ran. Qed.
(** 0 and 1 are datagram sockets with names; 1 has sent to 0. *)
Definition mail : list uop :=
  [Socket UDgram false; Socket UDgram true; Bind 0 (name 97) []; Bind 1 (name 98) []; Send 1 (Some (name 97)) false true false [1; 2; 3] None;
   Send 1 (Some (name 97)) false true false [4] None; hear 0 2].
Lemma mail_ran : ran mail (w_of mail) (outs_of mail) (S_of mail) (evs_of mail). Proof. ran. Qed.

(** For [C45_stuck_refuted]. *)
Definition loud : list uop := [Pair USeqPacket false; say 0 (repeat 7 (Z.to_nat 100000))].
Definition big : uop := say 0 (repeat 7 (Z.to_nat 150000)).
Definition stuckb (w : world) (o : uop) (ops2 : list uop) : bool :=
  match step w o with
  | Some (wb, RBlock 0 WWritable, _) =>
      match run wb ops2 with
      | Some (w', outs2) =>
          match step w' o with
          | Some (_, RSent n, _) => (n =? 150000) && negb (existsb (fun e => match e with (x, old, new, _) => (x =? 0) && negb (f_writable old) && f_writable new end) (notes outs2))
          | _ => false
          end
      | None => false
      end
  | _ => false
  end.
Lemma stuck_of w o ops2 : stuckb w o ops2 = true -> exists wb ns w' outs2 w2 ns2,
  step w o = Some (wb, RBlock 0 WWritable, ns) /\ run wb ops2 = Some (w', outs2) /\ step w' o = Some (w2, RSent 150000, ns2) /\
  ~ exists old new g, In (0, old, new, g) (notes outs2) /\ f_writable old = false /\ f_writable new = true.
Proof.
  intro B. unfold stuckb in B.
  destruct (step w o) as [[[wb r] ns]|] eqn:E1; [|discriminate B]. destruct r as [| | | | | | | |z on]; try discriminate B. destruct z; try discriminate B. destruct on; try discriminate B.
  destruct (run wb ops2) as [[w' outs2]|] eqn:E2; [|discriminate B]. destruct (step w' o) as [[[w2 r] ns2]|] eqn:E3; [|discriminate B].
  destruct r as [| | | |n| | | |]; try discriminate B. apply Bool.andb_true_iff in B as (B1 & B2). apply Z.eqb_eq in B1. subst n.
  exists wb, ns, w', outs2, w2, ns2. split; [reflexivity|]. split; [exact E2|]. split; [exact E3|]. intros (old & new & g & IN & O1 & O2).
  apply Bool.negb_true_iff in B2. assert (X : existsb (fun e => match e with (x, old, new, _) => (x =? 0) && negb (f_writable old) && f_writable new end) (notes outs2) = true); [|congruence].
  apply existsb_exists. eexists. split; [exact IN|]. cbn. rewrite O1, O2. reflexivity.
Qed.
Lemma stuck : exists ops o wb ns ops2 w' outs2 w2 ns2, Forall clean ops /\ clean o /\ Forall clean ops2 /\
  step (w_of ops) o = Some (wb, RBlock 0 WWritable, ns) /\ run wb ops2 = Some (w', outs2) /\ step w' o = Some (w2, RSent 150000, ns2) /\
  ~ exists old new g, In (0, old, new, g) (notes outs2) /\ f_writable old = false /\ f_writable new = true.
Proof.
  assert (B : stuckb (w_of loud) big [hear 1 200000] = true) by (vm_compute; reflexivity).
  destruct (stuck_of _ _ _ B) as (wb & ns & w' & outs2 & w2 & ns2 & X). exists loud, big, wb, ns, [hear 1 200000], w', outs2, w2, ns2.
  split; [repeat (apply Forall_cons; [first [exact I|reflexivity]|]); apply Forall_nil|]. split; [reflexivity|]. split; [repeat (apply Forall_cons; [reflexivity|]); apply Forall_nil|].
  exact X.
Qed.

(* ------------------------------------------------------------------ C42 *)
(** The calls return what the specification says, and crash when it says so. *)
Theorem C42_refines : forall ops, Forall clean ops ->
  match s_run k_init ops with
  | Some (S0, rs) => exists w outs, run init ops = Some (w, outs) /\ map fst outs = rs
  | None => run init ops = None
  end.
Proof. exact refines. Qed.
Print Assumptions C42_refines.
Example C42_refines_case : Forall clean talk /\ option_map snd (s_run k_init talk) = Some [RPair 0 1; RSent 3; RRecv 2 [1; 2] None false; RSent 2].
Proof. split; [apply talk_ran|vm_compute; reflexivity]. Qed.

(** Streams: what is read is what was sent, in order; the rest waits, unless the reader closed. *)
Theorem C42_stream : forall ops w outs S evs x y, ran ops w outs S evs -> linked UStream x y evs ->
  exists rest, concat (sends x evs) = concat (map data_of (reads y evs)) ++ rest /\
    forall k, ks S y = Some k -> gone k = false -> rest = concat (map snd (k_in k)).
Proof. exact stream_law. Qed.
Print Assumptions C42_stream.
Example C42_stream_case : concat (sends 0 (evs_of talk)) = [1; 2; 3; 4; 5] /\ concat (map data_of (reads 1 (evs_of talk))) = [1; 2].
Proof. split; vm_compute; reflexivity. Qed.

(** A read that has room and returns nothing: the other end is closed and everything it sent was read. *)
Theorem C42_stream_end : forall ops w outs S evs x y c f d t cap w' n src tr ns, ran ops w outs S evs -> linked UStream x y evs -> 0 < cap ->
  step w (Recv y c f d t cap None) = Some (w', RRecv n [] src tr, ns) -> is_gone S x = true /\ concat (sends x evs) = concat (map data_of (reads y evs)).
Proof. exact stream_eof. Qed.
Print Assumptions C42_stream_end.
(** Conversely such a read never waits. *)
Theorem C42_stream_ends : forall ops w outs S evs x y k d t cap, ran ops w outs S evs -> linked UStream x y evs -> ks S y = Some k -> k_fd k = true ->
  is_gone S x = true -> concat (sends x evs) = concat (map data_of (reads y evs)) ->
  exists w' src ns, step w (Recv y false true d t cap None) = Some (w', RRecv 0 [] src false, ns).
Proof. exact stream_ends. Qed.
Print Assumptions C42_stream_ends.
Definition over : list uop := talk ++ [hear 1 9; Close [0]].
Example C42_stream_end_case : ran over (w_of over) (outs_of over) (S_of over) (evs_of over) /\ linked UStream 0 1 (evs_of over) /\
  option_map (fun r => snd (fst r)) (step (w_of over) (hear 1 9)) = Some (RRecv 0 [] None false) /\ concat (sends 0 (evs_of over)) = [1; 2; 3; 4; 5].
Proof. split; [ran|]. split; [linked|]. split; vm_compute; reflexivity. Qed.

(** Messages: each read returns the beginning of the next message; after the last, reads return
    nothing only if the sender is closed. *)
Theorem C42_seqpacket : forall ops w outs S evs x y, ran ops w outs S evs -> linked USeqPacket x y evs ->
  exists taken rest r1 r2, sends x evs = taken ++ rest /\ reads y evs = r1 ++ r2 /\ Forall2 reads_front taken r1 /\
    Forall (fun r => data_of r = []) r2 /\ (r2 <> [] -> rest = [] /\ is_gone S x = true) /\
    forall k, ks S y = Some k -> gone k = false -> rest = map snd (k_in k).
Proof. exact packet_law. Qed.
Print Assumptions C42_seqpacket.
Definition packets : list uop := [Pair USeqPacket false; say 0 [1; 2; 3]; say 0 [4; 5]; hear 1 2; hear 1 9; Close [0]; hear 1 9].
Example C42_seqpacket_case : ran packets (w_of packets) (outs_of packets) (S_of packets) (evs_of packets) /\ linked USeqPacket 0 1 (evs_of packets) /\
  sends 0 (evs_of packets) = [[1; 2; 3]; [4; 5]] /\ map data_of (reads 1 (evs_of packets)) = [[1; 2]; [4; 5]; []].
Proof. split; [ran|]. split; [linked|]. split; vm_compute; reflexivity. Qed.

(** Datagrams: each read returns the beginning of the next datagram addressed to the socket, with its source. *)
Theorem C42_datagram : forall ops w outs S evs y k, ran ops w outs S evs -> ks S y = Some k -> gone k = false -> k_type k = UDgram ->
  exists taken, mailed y evs = taken ++ map (fun e => (snd (fst e), snd e)) (k_in k) /\
    Forall2 (fun m r => reads_front (snd m) r /\ snd r = fst m) taken (reads y evs).
Proof. exact datagram_law. Qed.
Print Assumptions C42_datagram.
Example C42_datagram_case : mailed 0 (evs_of mail) = [(Some [0; 98], [1; 2; 3]); (Some [0; 98], [4])] /\ reads 0 (evs_of mail) = [(2, [1; 2], Some [0; 98])].
Proof. split; vm_compute; reflexivity. Qed.

(** Two sockets are connected exactly by a pair or a connect, until one is closed. *)
Theorem C42_connected : forall ops w outs S evs, ran ops w outs S evs ->
  (forall t x y, linked t x y evs -> exists k, ks S y = Some k /\ k_type k = t /\ ((exists pn, k_role k = KConn x pn) \/ k_role k = KGone)) /\
  (forall y k x pn, ks S y = Some k -> k_role k = KConn x pn -> linked (k_type k) x y evs).
Proof. exact connected_law. Qed.
Print Assumptions C42_connected.
Example C42_connected_case : linked UStream 1 3 (evs_of serve) /\ linked UStream 4 2 (evs_of serve).
Proof. split; linked. Qed.

(** A reader that asks (MSG_TRUNC) is told the length of the message and whether bytes are missing. *)
Theorem C42_truncation_partial : forall ops w outs S evs y c f d cap w' n out src tr ns k, ran ops w outs S evs -> ks S y = Some k -> k_type k <> UStream ->
  step w (Recv y c f d true cap None) = Some (w', RRecv n out src tr, ns) ->
  n = blen (match k_in k with (_, _, m) :: _ => m | [] => [] end) /\ tr = (blen out <? n).
Proof. exact flag_law. Qed.
Print Assumptions C42_truncation_partial.
Example C42_truncation_case : option_map (fun r => snd (fst r)) (step (w_of [Pair USeqPacket false; say 0 [1; 2; 3]]) (Recv 1 false true false true 2 None)) = Some (RRecv 3 [1; 2] None true).
Proof. vm_compute. reflexivity. Qed.

(** Others are not told: MSG_TRUNC is not set in the flags of a message that was cut off. *)
Theorem C42_truncation_refuted : exists ops w outs, Forall clean ops /\ run init ops = Some (w, outs) /\
  ops = [Pair USeqPacket false; say 0 [1; 2; 3]; Recv 1 false true false false 2 None] /\ map fst outs = [RPair 0 1; RSent 3; RRecv 2 [1; 2] None false].
Proof. eexists _, _, _. split; [|split; [|split; [reflexivity|]]]; [repeat constructor|vm_compute; reflexivity|reflexivity]. Qed.
Print Assumptions C42_truncation_refuted.
(** A connected datagram socket still reads what others send: 0 is connected to 1 and reads from 2. *)
Theorem C42_filter_refuted : exists ops w outs, Forall clean ops /\ run init ops = Some (w, outs) /\
  ops = [Socket UDgram false; Socket UDgram false; Socket UDgram false; Bind 0 (name 97) []; Bind 1 (name 98) []; Bind 2 (name 99) []; Connect 0 (name 98);
         Send 2 (Some (name 97)) false true false [7] None; PeerName 0; hear 0 9] /\
  skipn 6 (map fst outs) = [ROk; RSent 1; RAddr [0; 98]; RRecv 1 [7] (Some [0; 99]) false].
Proof. eexists _, _, _. split; [|split; [|split; [reflexivity|]]]; [repeat constructor|vm_compute; reflexivity|reflexivity]. Qed.
Print Assumptions C42_filter_refuted.
(** A stream loses the bytes that could not be copied to the reader. *)
Theorem C42_fault_stream_refuted : exists ops w outs, run init ops = Some (w, outs) /\
  ops = [Pair UStream false; say 0 [1; 2; 3]; Recv 1 false true false false 9 (Some 2); say 0 [4]; hear 1 9] /\
  map fst outs = [RPair 0 1; RSent 3; RErr EFAULT; RSent 1; RRecv 2 [3; 4] None false].
Proof. eexists _, _, _. split; [|split; [reflexivity|]]; [vm_compute; reflexivity|reflexivity]. Qed.
Print Assumptions C42_fault_stream_refuted.
(** A datagram that could not be copied to the reader is lost and its source is given to the next one:
    2 sent the datagram that seems to come from 1. *)
Theorem C42_fault_source_refuted : exists ops w outs, run init ops = Some (w, outs) /\
  ops = [Socket UDgram false; Socket UDgram false; Socket UDgram false; Bind 0 (name 97) []; Bind 1 (name 98) []; Bind 2 (name 99) [];
         Send 1 (Some (name 97)) false true false [1] None; Send 2 (Some (name 97)) false true false [2] None;
         Recv 0 false true false false 9 (Some 0); hear 0 9] /\
  skipn 6 (map fst outs) = [RSent 1; RSent 1; RErr EFAULT; RRecv 1 [2] (Some [0; 98]) false].
Proof. eexists _, _, _. split; [|split; [reflexivity|]]; [vm_compute; reflexivity|reflexivity]. Qed.
Print Assumptions C42_fault_source_refuted.

(* ------------------------------------------------------------------ C43 *)
(** At most 212992 bytes of a sender wait to be read. *)
Theorem C43_bound : forall ops w outs S evs x k, ran ops w outs S evs -> ks S x = Some k ->
  match k_role k with KGram _ => True | KConn y _ => is_gone S y = false | _ => False end -> 0 <= in_flight S x <= 212992.
Proof. exact bound_law. Qed.
Print Assumptions C43_bound.
Example C43_bound_case : in_flight (S_of talk) 0 = 3 /\ in_flight (S_of mail) 1 = 1.
Proof. split; vm_compute; reflexivity. Qed.

(** A stream takes as many bytes as there is room for, given what was sent and read; it refuses or
    waits exactly if there is no room. *)
Theorem C43_stream : forall ops w outs S evs x y d data w' r ns k, ran ops w outs S evs -> linked UStream x y evs -> ks S x = Some k -> k_fd k = true ->
  step w (Send x None false true d data None) = Some (w', r, ns) ->
  let unread := blen (concat (sends x evs)) - blen (concat (map data_of (reads y evs))) in
  if is_gone S y then r = RErr EPIPE else
  0 <= unread <= 212992 /\
  r = if unread =? 212992 then would_block k d x WWritable else RSent (Z.min (blen data) (212992 - unread)).
Proof. exact stream_send. Qed.
Print Assumptions C43_stream.
Definition flood : list uop := [Pair UStream true; say 0 (repeat 7 (Z.to_nat 212990))].
Example C43_stream_case : ran flood (w_of flood) (outs_of flood) (S_of flood) (evs_of flood) /\ linked UStream 0 1 (evs_of flood) /\
  map fst (outs_of (flood ++ [say 0 [1; 2; 3]; say 0 [4]; hear 1 1; say 0 [5; 6]])) =
    [RPair 0 1; RSent 212990; RSent 2; RErr EAGAIN; RRecv 1 [7] None false; RSent 1].
Proof. split; [ran|]. split; [linked|]. vm_compute. reflexivity. Qed.

(** A message is taken whole or not at all; one that can never fit is refused. *)
Theorem C43_message : forall ops w outs S evs x d data w' r ns k y a, ran ops w outs S evs -> ks S x = Some k -> k_fd k = true -> k_type k <> UStream ->
  match k_role k with KConn _ _ | KGram _ => True | _ => False end -> destination S k a = inl y -> is_gone S y = false ->
  step w (Send x a false true d data None) = Some (w', r, ns) ->
  0 <= in_flight S x <= 212992 /\
  r = if in_flight S x + blen data <=? 212992 then (if in_flight S x =? 212992 then would_block k d x WWritable else RSent (blen data))
      else if (blen data <=? 212992) || (in_flight S x =? 212992) then would_block k d x WWritable else RErr EMSGSIZE.
Proof. exact message_send. Qed.
Print Assumptions C43_message.
Example C43_message_case :
  map fst (outs_of [Pair USeqPacket true; say 0 (repeat 7 (Z.to_nat 212990)); say 0 [1; 2; 3]; say 0 (repeat 7 (Z.to_nat 212993)); say 0 [1; 2]; say 0 []]) =
    [RPair 0 1; RSent 212990; RErr EAGAIN; RErr EMSGSIZE; RSent 2; RErr EAGAIN].
Proof. vm_compute. reflexivity. Qed.

(* ------------------------------------------------------------------ C44 *)
(** A name can be taken exactly if no open socket of the same kind has it. *)
Theorem C44_bind : forall ops w outs S evs x k n d w' r ns, ran ops w outs S evs -> ks S x = Some k -> k_fd k = true ->
  match k_role k with KNew | KGram _ => True | _ => False end -> k_name k = None -> step w (Bind x (AUnix (0 :: n)) d) = Some (w', r, ns) ->
  (r = RErr EADDRINUSE /\ in_use S evs (k_type k) n) \/ (r = ROk /\ ~ in_use S evs (k_type k) n).
Proof. exact bind_law. Qed.
Print Assumptions C44_bind.
Example C44_bind_case : map fst (outs_of [Socket UStream false; Bind 0 (name 97) []; Socket UStream false; Bind 1 (name 97) []; Socket UDgram false; Bind 2 (name 97) []; Close [0]; Bind 1 (name 97) []]) =
  [RSock 0; ROk; RSock 1; RErr EADDRINUSE; RSock 2; ROk; ROk; ROk].
Proof. vm_compute. reflexivity. Qed.

(** Without a name, bind chooses a free one of five hexadecimal digits, unless all are taken. *)
Theorem C44_autobind : forall ops w outs S evs x k d w' r ns, ran ops w outs S evs -> ks S x = Some k -> k_fd k = true ->
  match k_role k with KNew | KGram _ => True | _ => False end -> k_name k = None -> step w (Bind x (AUnix []) d) = Some (w', r, ns) ->
  (r = ROk /\ exists n w2 ns2, five n /\ ~ in_use S evs (k_type k) n /\ step w' (SockName x) = Some (w2, RAddr (0 :: n), ns2)) \/
  (r = RErr EADDRINUSE /\ forall n, five n -> in_use S evs (k_type k) n).
Proof. exact autobind_law. Qed.
Print Assumptions C44_autobind.
Example C44_autobind_case : map fst (outs_of [Socket UStream false; Bind 0 (AUnix []) [(1, 2, 3, 4, 6)]; SockName 0; Socket UStream false; Bind 1 (AUnix []) [(1, 2, 3, 4, 6)]; SockName 1]) =
  [RSock 0; ROk; RAddr [0; 98; 99; 100; 101; 48]; RSock 1; ROk; RAddr [0; 97; 97; 97; 97; 97]].
Proof. vm_compute. reflexivity. Qed.

(** A name leads to the open socket that took it. *)
Theorem C44_owner : forall ops w outs S evs t n, ran ops w outs S evs ->
  match owner S t (0 :: n) with
  | inl y => exists ky, named y n evs /\ ks S y = Some ky /\ gone ky = false /\ k_type ky = t
  | inr e => e = ECONNREFUSED /\ ~ in_use S evs t n
  end.
Proof. exact owner_law. Qed.
Print Assumptions C44_owner.
Example C44_owner_case : owner (S_of serve) UStream [0; 97] = inl 0 /\ owner (S_of serve) UDgram [0; 97] = inr ECONNREFUSED.
Proof. split; vm_compute; reflexivity. Qed.

(** Connections are accepted in the order in which they were made, each once, with the address of the
    socket that connected; the others wait. *)
Theorem C44_accept : forall ops w outs S evs x k q lim, ran ops w outs S evs -> ks S x = Some k -> k_role k = KListen q lim ->
  arrivals x evs = accepts x evs ++ map (fun c => (c, from_of S c)) q.
Proof. exact accept_law. Qed.
Print Assumptions C44_accept.
Example C44_accept_case : arrivals 0 (evs_of serve) = [(3, []); (4, [0; 98])] /\ accepts 0 (evs_of serve) = [(3, [])] /\
  option_map k_role (ks (S_of serve) 0) = Some (KListen [4] 2).
Proof. repeat split; vm_compute; reflexivity. Qed.

(** A connect succeeds exactly if fewer connections wait than the last backlog admits. *)
Theorem C44_connect : forall ops w outs S evs x k p y ky q lim w' r ns, ran ops w outs S evs -> ks S x = Some k -> k_fd k = true -> k_role k = KNew ->
  owner S (k_type k) p = inl y -> ks S y = Some ky -> k_role ky = KListen q lim -> step w (Connect x (AUnix p)) = Some (w', r, ns) ->
  exists n, backlog y evs = Some n /\
    let waiting := Z.of_nat (length (arrivals y evs)) - Z.of_nat (length (accepts y evs)) in
    0 <= waiting <= 4097 /\ r = if queue_size n <=? waiting then would_block k false y WAllow else ROk.
Proof. exact connect_law. Qed.
Print Assumptions C44_connect.
Example C44_connect_case : map fst (outs_of [Socket UStream false; Bind 0 (name 97) []; Listen 0 0; Socket UStream true; Socket UStream true; Connect 1 (name 97); Connect 2 (name 97);
    Accept 0 false; Connect 2 (name 97)]) = [RSock 0; ROk; ROk; RSock 1; RSock 2; ROk; RErr EAGAIN; RAccepted 3 []; ROk].
Proof. vm_compute. reflexivity. Qed.

(** An accepted socket does not wait if the listener does not: 2 should block. *)
Theorem C44_inherit_refuted : exists ops w outs, Forall clean ops /\ run init ops = Some (w, outs) /\
  ops = [Socket UStream true; Bind 0 (name 97) []; Listen 0 0; Socket UStream false; Connect 1 (name 97); Accept 0 false; hear 2 9] /\
  skipn 5 (map fst outs) = [RAccepted 2 []; RErr EAGAIN].
Proof. eexists _, _, _. split; [|split; [|split; [reflexivity|]]]; [repeat constructor|vm_compute; reflexivity|reflexivity]. Qed.
Print Assumptions C44_inherit_refuted.

(* ------------------------------------------------------------------ C45 *)
(** What poll sees: closed, readable if a read would not wait, writable if a byte could be sent.
    The exception: a datagram socket that was not used yet. *)
Theorem C45_bits_partial : forall ops w outs S evs x s, ran ops w outs S evs -> sock w x = Some s -> exists k, ks S x = Some k /\
  f_closed (us_bits s) = gone k /\ f_readable (us_bits s) = says_readable S k /\ f_allow (us_bits s) = says_allow k /\
  (f_writable (us_bits s) = says_writable S x k \/ (untouched S x k = true /\ f_writable (us_bits s) = false)).
Proof. exact bits_law. Qed.
Print Assumptions C45_bits_partial.
Example C45_bits_case : map (bits_at (w_of talk)) [0; 1] = [mkBits true false true false false; mkBits true true true false false] /\
  map (bits_at (w_of serve)) [0; 1] = [mkBits true true false false true; mkBits true false true false false].
Proof. split; vm_compute; reflexivity. Qed.
(** A new datagram socket does not poll as writable, though a send succeeds at once. *)
Theorem C45_writable_refuted : exists ops w outs, Forall clean ops /\ run init ops = Some (w, outs) /\
  ops = [Socket UDgram false; Bind 0 (name 97) []; Socket UDgram false; Bind 1 (name 98) []] /\ f_writable (bits_at w 1) = false /\
  option_map (fun r => snd (fst r)) (step w (Send 1 (Some (name 97)) false true false [1] None)) = Some (RSent 1).
Proof. eexists _, _, _. split; [|split; [|split; [reflexivity|]]]; [repeat constructor|vm_compute; reflexivity|split; vm_compute; reflexivity]. Qed.
Print Assumptions C45_writable_refuted.

(** The listeners of a socket are told every change of its bits, in order. *)
Theorem C45_told : forall ops w outs S evs x, ran ops w outs S evs -> forall ops2 w' outs2, Forall clean ops2 -> run w ops2 = Some (w', outs2) ->
  chain (bits_at w x) (said x (notes outs2)) (bits_at w' x).
Proof. exact notes_chain. Qed.
Print Assumptions C45_told.
Example C45_told_case : said 1 (notes (outs_of talk)) <> [] /\ bits_at (w_of talk) 1 <> bits_at init 1.
Proof. split; vm_compute; discriminate. Qed.

(** Whenever data arrives, the receiver's listeners are told that there is new data. *)
Theorem C45_news : forall ops w outs S evs x a d data w' n ns k y, ran ops w outs S evs -> ks S x = Some k -> destination S k a = inl y ->
  0 < n \/ k_type k <> UStream -> step w (Send x a false true d data None) = Some (w', RSent n, ns) -> exists old new, In (y, old, new, true) ns.
Proof. exact news. Qed.
Print Assumptions C45_news.
Example C45_news_case : option_map (fun r => existsb (fun n => (fst (fst (fst n)) =? 1) && snd n) (snd r)) (step (w_of talk) (say 0 [6])) = Some true.
Proof. vm_compute. reflexivity. Qed.

(** A call that waits is told when it can go on. The exception: a message for which there is some
    room, but too little. *)
Theorem C45_woken_partial : forall ops w outs S evs o wb z on ns, ran ops w outs S evs -> clean o -> step w o = Some (wb, RBlock z on, ns) ->
  (bit on (bits_at wb z) = false /\
   forall ops2 w' outs2 w2 r ns2, Forall clean ops2 -> run wb ops2 = Some (w', outs2) -> step w' o = Some (w2, r, ns2) -> goes o r ->
     exists old new g, In (z, old, new, g) (notes outs2) /\ bit on old = false /\ bit on new = true) \/
  exists x a c f dw data fault k, o = Send x a c f dw data fault /\ ks S x = Some k /\ k_type k <> UStream /\ 0 < room S x < blen data.
Proof. exact blocks_wakes. Qed.
Print Assumptions C45_woken_partial.
Definition full : list uop := [Pair UDgram false; say 0 (repeat 7 (Z.to_nat 212992))].
Example C45_woken_case : option_map (fun r => snd (fst r)) (step (w_of full) (say 0 [1])) = Some (RBlock 0 WWritable) /\
  option_map (fun r => snd (fst r)) (step (w_of (full ++ [hear 1 9])) (say 0 [1])) = Some (RSent 1).
Proof. split; vm_compute; reflexivity. Qed.
(** A message of 150000 bytes waits while one of 100000 is unread. When that is read it could go on,
    but nothing tells the sender. *)
Theorem C45_stuck_refuted : exists ops o wb ns ops2 w' outs2 w2 ns2, Forall clean ops /\ clean o /\ Forall clean ops2 /\
  step (w_of ops) o = Some (wb, RBlock 0 WWritable, ns) /\ run wb ops2 = Some (w', outs2) /\ step w' o = Some (w2, RSent 150000, ns2) /\
  ~ exists old new g, In (0, old, new, g) (notes outs2) /\ f_writable old = false /\ f_writable new = true.
Proof. exact stuck. Qed.
Print Assumptions C45_stuck_refuted.

(* ------------------------------------------------------------------ C46 *)
(** Exactly the calls by which a socket sends or connects to itself crash the simulation. *)
Theorem C46_crash_partial : forall ops, Forall clean ops -> (run init ops = None <->
  exists ops1 o ops2 w outs S evs, ops = ops1 ++ o :: ops2 /\ ran ops1 w outs S evs /\ to_self S o).
Proof. exact crash_law. Qed.
Print Assumptions C46_crash_partial.
Example C46_crash_case : run init (serve ++ [hear 3 9; Close [0; 1; 2; 3]]) <> None.
Proof. vm_compute. discriminate. Qed.
(** A datagram socket sends to its own name. *)
Theorem C46_self_refuted : exists ops, Forall clean ops /\ run init ops = None /\
  ops = [Socket UDgram false; Bind 0 (name 97) []; Send 0 (Some (name 97)) false true false [1] None].
Proof. eexists. split; [|split; [|reflexivity]]; [repeat constructor|vm_compute; reflexivity]. Qed.
Print Assumptions C46_self_refuted.
(** A stream socket connects to its own name. *)
Theorem C46_connect_refuted : exists ops, Forall clean ops /\ run init ops = None /\ ops = [Socket UStream false; Bind 0 (name 97) []; Connect 0 (name 97)].
Proof. eexists. split; [|split; [|reflexivity]]; [repeat constructor|vm_compute; reflexivity]. Qed.
Print Assumptions C46_connect_refuted.
(** The bytes of a stream that were read from memory before a fault can be read, but are not counted. *)
Theorem C46_fault_refuted : exists ops, run init ops = None /\ ops = [Pair UStream false; Send 0 None false true false [1; 2; 3] (Some 2); hear 1 9].
Proof. eexists. split; [|reflexivity]. vm_compute. reflexivity. Qed.
Print Assumptions C46_fault_refuted.
(** A datagram that could not be copied to the reader is gone, but not its entry in the list of sources. *)
Theorem C46_fault_datagram_refuted : exists ops, run init ops = None /\
  ops = [Pair UDgram false; say 0 [1; 2; 3]; say 0 [4]; Recv 1 false true false false 9 (Some 1); hear 1 9].
Proof. eexists. split; [|reflexivity]. vm_compute. reflexivity. Qed.
Print Assumptions C46_fault_datagram_refuted.
