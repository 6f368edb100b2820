(** Specification of UDP sockets: mailboxes of datagrams, independent of how buffers, associations
    and queues are kept. The vocabulary of operations and results is UdpModel's. *)
From Verif Require Import Base FMap NetqModel IfaceModel IfaceSpec UdpModel.

Record dgram := mkD { d_from : addr; d_to : addr; d_data : list Z }.
Definition size (d : dgram) : Z := Z.of_nat (length (d_data d)).
Definition total (l : list dgram) : Z := zsum (map size l).
(** The datagram a packet carries. *)
Definition payload (p : upkt) : dgram := mkD (up_src p) (up_dst p) (up_data p).

(** A socket: what it is bound and connected to, the datagrams waiting to be read with their arrival
    times, and the datagrams waiting to leave with the numbers of their sends. *)
Record ssock := mkSk {
  s_open : bool; s_nb : bool; s_shr : bool; s_shw : bool; s_bound : option addr; s_peer : option addr;
  s_in : list (dgram * Z); s_out : list (Z * dgram); s_inlim : Z; s_outlim : Z; s_last : option Z }.
Definition fresh (nb : bool) (out inn : Z) : ssock := mkSk true nb false false None None [] [] inn out None.
Definition s_set_bound (k : ssock) (b : option addr) : ssock :=
  mkSk (s_open k) (s_nb k) (s_shr k) (s_shw k) b (s_peer k) (s_in k) (s_out k) (s_inlim k) (s_outlim k) (s_last k).
Definition s_set_peer (k : ssock) (p : option addr) : ssock :=
  mkSk (s_open k) (s_nb k) (s_shr k) (s_shw k) (s_bound k) p (s_in k) (s_out k) (s_inlim k) (s_outlim k) (s_last k).
Definition s_set_in (k : ssock) (l : list (dgram * Z)) : ssock :=
  mkSk (s_open k) (s_nb k) (s_shr k) (s_shw k) (s_bound k) (s_peer k) l (s_out k) (s_inlim k) (s_outlim k) (s_last k).
Definition s_set_out (k : ssock) (l : list (Z * dgram)) : ssock :=
  mkSk (s_open k) (s_nb k) (s_shr k) (s_shw k) (s_bound k) (s_peer k) (s_in k) l (s_inlim k) (s_outlim k) (s_last k).
Definition s_set_last (k : ssock) (t : option Z) : ssock :=
  mkSk (s_open k) (s_nb k) (s_shr k) (s_shw k) (s_bound k) (s_peer k) (s_in k) (s_out k) (s_inlim k) (s_outlim k) t.
Definition s_set_lim (k : ssock) (inn out : Z) : ssock :=
  mkSk (s_open k) (s_nb k) (s_shr k) (s_shw k) (s_bound k) (s_peer k) (s_in k) (s_out k) inn out (s_last k).
Definition s_set_nb (k : ssock) (nb : bool) : ssock :=
  mkSk (s_open k) nb (s_shr k) (s_shw k) (s_bound k) (s_peer k) (s_in k) (s_out k) (s_inlim k) (s_outlim k) (s_last k).
Definition s_set_shut (k : ssock) (rd wr : bool) : ssock :=
  mkSk (s_open k) (s_nb k) rd wr (s_bound k) (s_peer k) (s_in k) (s_out k) (s_inlim k) (s_outlim k) (s_last k).
Definition s_shut_down (k : ssock) : ssock :=
  mkSk false (s_nb k) (s_shr k) (s_shw k) (s_bound k) (s_peer k) (s_in k) (s_out k) (s_inlim k) (s_outlim k) (s_last k).
Definition in_full (k : ssock) : Prop := s_inlim k <= total (map fst (s_in k)).
Definition out_full (k : ssock) : Prop := s_outlim k <= total (map snd (s_out k)).

(** All sockets of a host, how many sends there were, how many sockets, and whether each interface is
    about to forward. *)
Record sstate := mkSS { ss_sock : Z -> option ssock; ss_seq : Z; ss_next : Z; ss_busy : which -> bool }.
Definition empty_host : sstate := mkSS (fun _ => None) 0 0 (fun _ => false).
Definition upd (st : sstate) (s : Z) (k : ssock) : sstate :=
  mkSS (fun x => if x =? s then Some k else ss_sock st x) (ss_seq st) (ss_next st) (ss_busy st).
Definition which_eqb (a b : which) : bool := match a, b with Lo, Lo => true | Inet, Inet => true | _, _ => false end.
Definition set_busy (st : sstate) (w : which) (b : bool) : sstate :=
  mkSS (ss_sock st) (ss_seq st) (ss_next st) (fun x => if which_eqb x w then b else ss_busy st x).

Section Spec.
(** The host's public address, the addresses in the simulation, the order of the send queues. *)
Variable pub : Z.
Variable known : Z -> bool.
Variable disc : kind.

(** Socket [s] is the one that has port [port] of interface [w]. *)
Definition owner (st : sstate) (w : which) (port s : Z) : Prop :=
  exists k ip, ss_sock st s = Some k /\ s_open k = true /\ s_bound k = Some (ip, port) /\ covers pub w ip.
(** Nobody has [port] on any interface [ip] denotes. *)
Definition unused (st : sstate) (ip port : Z) : Prop := forall w s, covers pub w ip -> ~ owner st w port s.
Definition local_ip (ip : Z) : Prop := exists w, covers pub w ip.

(** Binding to an address; port 0 asks for any unused one of the ephemeral range. *)
Inductive binds (st : sstate) : addr -> addr + uerr -> Prop :=
| BForeign ip port : ~ local_ip ip -> binds st (ip, port) (inr EINVAL)
| BPort ip port : local_ip ip -> port <> 0 -> unused st ip port -> binds st (ip, port) (inl (ip, port))
| BTaken ip port : local_ip ip -> port <> 0 -> ~ unused st ip port -> binds st (ip, port) (inr EADDRINUSE)
| BAny ip port : local_ip ip -> port_range port -> unused st ip port -> binds st (ip, 0) (inl (ip, port))
| BNone ip : local_ip ip -> (forall port, port_range port -> ~ unused st ip port) -> binds st (ip, 0) (inr EADDRINUSE).

(** Can a socket bound to [b] send to [dst]? Loopback and other addresses do not mix. *)
Definition reaches (b dst : addr) : Prop := fst b = 0 \/ (fst b = LOCALHOST <-> fst dst = LOCALHOST).
(** The socket as bound for talking to [dst], implicitly at [ip] if it was not, or why it cannot be. *)
Inductive prepared (st : sstate) (k : ssock) (dst : addr) (ip : Z) : ssock + uerr -> Prop :=
| PBound b : s_bound k = Some b -> reaches b dst -> prepared st k dst ip (inl k)
| PCannot b : s_bound k = Some b -> ~ reaches b dst -> prepared st k dst ip (inr EINVAL)
| PBind b : s_bound k = None -> binds st (ip, 0) (inl b) -> prepared st k dst ip (inl (s_set_bound k (Some b)))
| PFail e : s_bound k = None -> binds st (ip, 0) (inr e) -> prepared st k dst ip (inr e).

(** What happens to datagrams: sent by a socket as the host's [n]th, leaving it through an interface,
    put on the simulated network, put in a socket's mailbox, dropped on the way, taken out of a mailbox. *)
Inductive label := LSent (n s : Z) (d : dgram) | LLeft (w : which) (n s : Z) (d : dgram) | LWire (d : dgram) | LPut (s : Z) (d : dgram) | LDrop (d : dgram) | LTake (s : Z) (d : dgram).

(** A datagram reaches interface [w]. *)
Inductive received (st : sstate) (w : which) (d : dgram) (now : Z) : list label -> sstate -> Prop :=
| RNobody : (forall s, ~ owner st w (snd (d_to d)) s) -> received st w d now [LDrop d] st
| RStranger s k a : owner st w (snd (d_to d)) s -> ss_sock st s = Some k -> s_peer k = Some a -> a <> d_from d ->
    received st w d now [LDrop d] st
| RFull s k : owner st w (snd (d_to d)) s -> ss_sock st s = Some k -> in_full k -> received st w d now [LDrop d] st
| RTaken s k : owner st w (snd (d_to d)) s -> ss_sock st s = Some k -> (forall a, s_peer k = Some a -> a = d_from d) ->
    ~ in_full k -> received st w d now [LPut s d] (upd st s (s_set_in k (s_in k ++ [(d, now)]))).
(** A datagram on its way: to this host's loopback or public address, to another host, or to nobody. *)
Inductive routed (st : sstate) (d : dgram) (now : Z) : list label -> sstate -> Prop :=
| RoLo l st' : fst (d_to d) = LOCALHOST -> received st Lo d now l st' -> routed st d now l st'
| RoInet l st' : fst (d_to d) = pub -> received st Inet d now l st' -> routed st d now l st'
| RoWire : fst (d_to d) <> LOCALHOST -> fst (d_to d) <> pub -> known (fst (d_to d)) = true -> routed st d now [LWire d] st
| RoNobody : fst (d_to d) <> LOCALHOST -> fst (d_to d) <> pub -> known (fst (d_to d)) = false -> routed st d now [LDrop d] st.

(** The interface a socket sends through. *)
Definition via (k : ssock) (w : which) : Prop :=
  exists b, s_bound k = Some b /\ match w with Lo => loopback (fst b) | Inet => ~ loopback (fst b) end.
(** Whose turn it is: with the priority discipline, the least recent send. *)
Definition turn (st : sstate) (w : which) (n : Z) : Prop :=
  disc = MinPriority -> forall s k m d r, ss_sock st s = Some k -> via k w -> s_out k = (m, d) :: r -> n <= m.

Definition wait_or (now : bool) (r : ures) : ures := if now then UErr EWOULDBLOCK else r.
Definition cut (n : Z) (l : list Z) : list Z := firstn (Z.to_nat n) l.
(** Reading datagram [d] into [room] bytes. *)
Definition reading (room : Z) (trunc : bool) (d : dgram) : ures :=
  UMsg (if trunc then size d else Z.min room (size d)) (cut room (d_data d)) (d_from d) (room <? size d).
Definition doubled (low v : Z) : Z := Z.min 268435456 (Z.max low (2 * v)).
(** The destination of a send. *)
Definition target (k : ssock) (x : sargs) : addr + uerr :=
  match sa_addr x, s_peer k with
  | Some (Some a), _ => inl a
  | Some None, _ => inr EAFNOSUPPORT
  | None, Some a => inl a
  | None, None => inr EDESTADDRREQ
  end.
(** The source address given to a datagram sent from [b] to [dst]. *)
Definition source (b dst : addr) : addr :=
  if fst b =? 0 then (if fst dst =? LOCALHOST then LOCALHOST else pub, snd b) else b.
(** The relay woken by a send from [b]. *)
Definition woken (b : addr) : which := if fst b =? LOCALHOST then Lo else Inet.

(** System calls on the open socket [s] with state [k]. *)
Inductive syscall (st : sstate) (s : Z) (k : ssock) : uop -> ures -> list label -> sstate -> Prop :=
| CBindNull rng : syscall st s k (UBind s None rng) (UErr EFAULT) [] st
| CBindOther rng : syscall st s k (UBind s (Some None) rng) (UErr EINVAL) [] st
| CBindAgain a b rng : s_bound k = Some b -> syscall st s k (UBind s (Some (Some a)) rng) (UErr EINVAL) [] st
| CBind a b rng : s_bound k = None -> binds st a (inl b) ->
    syscall st s k (UBind s (Some (Some a)) rng) UOk [] (upd st s (s_set_bound k (Some b)))
| CBindFail a e rng : s_bound k = None -> binds st a (inr e) -> syscall st s k (UBind s (Some (Some a)) rng) (UErr e) [] st
| CConnectOther rng : syscall st s k (UConnect s None rng) (UErr EINVAL) [] st
| CConnectNobody ip port rng : ip <> 0 -> ip <> LOCALHOST -> known pub && known ip = false ->
    syscall st s k (UConnect s (Some (ip, port)) rng) (UErr ECONNREFUSED) [] st
| CConnect ip port ip' rng k' : ip' = (if ip =? 0 then LOCALHOST else ip) -> (ip' = LOCALHOST \/ known pub && known ip' = true) ->
    prepared st k (ip', port) (if ip' =? LOCALHOST then LOCALHOST else pub) (inl k') ->
    syscall st s k (UConnect s (Some (ip, port)) rng) UOk [] (upd st s (s_set_peer k' (Some (ip', port))))
| CConnectFail ip port ip' rng e : ip' = (if ip =? 0 then LOCALHOST else ip) -> (ip' = LOCALHOST \/ known pub && known ip' = true) ->
    prepared st k (ip', port) (if ip' =? LOCALHOST then LOCALHOST else pub) (inr e) ->
    syscall st s k (UConnect s (Some (ip, port)) rng) (UErr e) [] st
| CSendShut x rng : s_shw k = true -> syscall st s k (USend s x rng) (UErr EPIPE) [] st
| CSendFlags x rng : s_shw k = false -> sa_flags x = None -> syscall st s k (USend s x rng) (UErr EINVAL) [] st
| CSendDest x rng e : s_shw k = false -> sa_flags x <> None -> target k x = inr e -> syscall st s k (USend s x rng) (UErr e) [] st
| CSendLarge x rng dst : s_shw k = false -> sa_flags x <> None -> target k x = inl dst -> 65507 < blen (sa_data x) ->
    syscall st s k (USend s x rng) (UErr EMSGSIZE) [] st
| CSendCannot x rng dst e : s_shw k = false -> sa_flags x <> None -> target k x = inl dst -> blen (sa_data x) <= 65507 ->
    prepared st k dst 0 (inr e) -> syscall st s k (USend s x rng) (UErr e) [] st
| CSendFull x rng dst dw k' : s_shw k = false -> sa_flags x = Some dw -> target k x = inl dst -> blen (sa_data x) <= 65507 ->
    prepared st k dst 0 (inl k') -> out_full k' ->
    syscall st s k (USend s x rng) (wait_or (dw || s_nb k) UWaitWritable) [] (upd st s k')
| CSendFault x rng dst k' : s_shw k = false -> sa_flags x <> None -> target k x = inl dst -> blen (sa_data x) <= 65507 ->
    prepared st k dst 0 (inl k') -> ~ out_full k' -> sa_mem x = false -> sa_data x <> [] ->
    syscall st s k (USend s x rng) (UErr EFAULT) [] (upd st s k')
| CSend x rng dst k' b : s_shw k = false -> sa_flags x <> None -> target k x = inl dst -> blen (sa_data x) <= 65507 ->
    prepared st k dst 0 (inl k') -> ~ out_full k' -> (sa_mem x = true \/ sa_data x = []) -> s_bound k' = Some b ->
    let d := mkD (source b dst) dst (sa_data x) in
    let st1 := upd st s (s_set_out k' (s_out k' ++ [(ss_seq st, d)])) in
    syscall st s k (USend s x rng) (UNum (blen (sa_data x))) [LSent (ss_seq st) s d]
      (set_busy (mkSS (ss_sock st1) (ss_seq st + 1) (ss_next st) (ss_busy st)) (woken b) true)
| CRecvFlags x : ra_flags x = None -> syscall st s k (URecv s x) (UErr EINVAL) [] st
| CRecvNone x dw pk tr : ra_flags x = Some (dw, pk, tr) -> s_in k = [] ->
    syscall st s k (URecv s x) (wait_or (dw || s_nb k) (if s_shr k then UEof else UWaitReadable)) [] st
| CPeek x dw tr d t r : ra_flags x = Some (dw, true, tr) -> s_in k = (d, t) :: r -> (ra_mem x = true \/ cut (ra_len x) (d_data d) = []) ->
    syscall st s k (URecv s x) (reading (ra_len x) tr d) [] (upd st s (s_set_last k (Some t)))
| CPeekFault x dw tr d t r : ra_flags x = Some (dw, true, tr) -> s_in k = (d, t) :: r -> ra_mem x = false -> cut (ra_len x) (d_data d) <> [] ->
    syscall st s k (URecv s x) (UErr EFAULT) [] st
| CRecv x dw tr d t r : ra_flags x = Some (dw, false, tr) -> s_in k = (d, t) :: r -> (ra_mem x = true \/ cut (ra_len x) (d_data d) = []) ->
    syscall st s k (URecv s x) (reading (ra_len x) tr d) [LTake s d] (upd st s (s_set_last (s_set_in k r) (Some t)))
| CRecvFault x dw tr d t r : ra_flags x = Some (dw, false, tr) -> s_in k = (d, t) :: r -> ra_mem x = false -> cut (ra_len x) (d_data d) <> [] ->
    syscall st s k (URecv s x) (UErr EFAULT) [LTake s d] (upd st s (s_set_in k r))
| CShutNone rd wr : s_peer k = None -> syscall st s k (UShutdown s rd wr) (UErr ENOTCONN) [] st
| CShut rd wr : s_peer k <> None -> syscall st s k (UShutdown s rd wr) UOk [] (upd st s (s_set_shut k (s_shr k || rd) (s_shw k || wr)))
| CSndBufNeg v : v < 0 -> syscall st s k (USndBuf s v) (UErr EINVAL) [] st
| CSndBuf v : 0 <= v -> syscall st s k (USndBuf s v) UOk [] (upd st s (s_set_lim k (s_inlim k) (doubled 4096 v)))
| CRcvBufNeg v : v < 0 -> syscall st s k (URcvBuf s v) (UErr EINVAL) [] st
| CRcvBuf v : 0 <= v -> syscall st s k (URcvBuf s v) UOk [] (upd st s (s_set_lim k (doubled 2048 v) (s_outlim k)))
| CNonblock nb : syscall st s k (UNonblock s nb) UOk [] (upd st s (s_set_nb k nb))
| CName a : (a = match s_bound k, s_peer k with
                 | Some (ip, port), Some (pip, _) => (if ip =? 0 then pip else ip, port)
                 | Some b, None => b
                 | None, _ => (0, 0) end) -> syscall st s k (UName s) (UAddr a) [] st
| CPeerNone : s_peer k = None -> syscall st s k (UPeer s) (UErr ENOTCONN) [] st
| CPeer a : s_peer k = Some a -> syscall st s k (UPeer s) (UAddr a) [] st
| CInq n : (n = match s_in k with (d, _) :: _ => size d | [] => 0 end) -> syscall st s k (UInq s) (UNum n) [] st
| COutq : syscall st s k (UOutq s) (UNum (total (map snd (s_out k)))) [] st
| CStampNone : s_last k = None -> syscall st s k (UStamp s) (UErr ENOENT) [] st
| CStamp t : s_last k = Some t -> syscall st s k (UStamp s) (UNum t) [] st
| CClose : syscall st s k (UClose s) UOk [] (upd st s (s_shut_down k)).

(** The socket a system call names. *)
Definition names (o : uop) : option Z :=
  match o with
  | UBind s _ _ | UConnect s _ _ | USend s _ _ | URecv s _ | UShutdown s _ _ | USndBuf s _ | URcvBuf s _ | UNonblock s _
  | UName s | UPeer s | UInq s | UOutq s | UStamp s | UClose s => Some s
  | USocket _ _ _ | UForward _ _ | UArrive _ _ => None
  end.

Inductive ustep (st : sstate) : uop -> ures -> list label -> sstate -> Prop :=
| TSocket nb out inn : ustep st (USocket nb out inn) (UNum (ss_next st)) []
    (mkSS (ss_sock (upd st (ss_next st) (fresh nb out inn))) (ss_seq st) (ss_next st + 1) (ss_busy st))
| TCall s k o r l st' : names o = Some s -> ss_sock st s = Some k -> s_open k = true -> syscall st s k o r l st' -> ustep st o r l st'
| TBad s o : names o = Some s -> (forall k, ss_sock st s = Some k -> s_open k = false) -> ustep st o (UErr EBADF) [] st
| TAsleep w now : ss_busy st w = false -> ustep st (UForward w now) UOk [] st
| TIdle w now : ss_busy st w = true -> (forall s k, ss_sock st s = Some k -> via k w -> s_out k = []) ->
    ustep st (UForward w now) UOk [] (set_busy st w false)
| TForward w now s k n d r l st' : ss_busy st w = true -> ss_sock st s = Some k -> via k w -> s_out k = (n, d) :: r -> turn st w n ->
    routed (upd st s (s_set_out k r)) d now l st' -> ustep st (UForward w now) UOk (LLeft w n s d :: l) st'
| TArrive p now l st' : routed st (payload p) now l st' -> ustep st (UArrive p now) UOk l st'.

Inductive urun : sstate -> list uop -> list (ures * list label) -> sstate -> Prop :=
| UNil st : urun st [] [] st
| UCons st st1 st2 o r l ops rs : ustep st o r l st1 -> urun st1 ops rs st2 -> urun st (o :: ops) ((r, l) :: rs) st2.
End Spec.

(** What the network sees of a step. *)
Definition wired (l : list label) : list dgram := flat_map (fun x => match x with LWire d => [d] | _ => [] end) l.
Definition wires (e : list uevent) : list dgram := flat_map (fun x => match x with EWire p => [payload p] | ENote _ _ _ => [] end) e.
(** A specification's run and a model's agree. *)
Definition matches (a : ures * list uevent) (b : ures * list label) : Prop := fst a = fst b /\ wires (snd a) = wired (snd b).

(** What a run did, read off its labels. *)
Definition labels (ls : list (ures * list label)) : list label := concat (map snd ls).
Definition puts (s : Z) (l : list label) : list dgram := flat_map (fun x => match x with LPut y d => if y =? s then [d] else [] | _ => [] end) l.
Definition takes (s : Z) (l : list label) : list dgram := flat_map (fun x => match x with LTake y d => if y =? s then [d] else [] | _ => [] end) l.
Definition sents (s : Z) (l : list label) : list (Z * dgram) := flat_map (fun x => match x with LSent n y d => if y =? s then [(n, d)] else [] | _ => [] end) l.
Definition lefts (s : Z) (l : list label) : list (Z * dgram) := flat_map (fun x => match x with LLeft _ n y d => if y =? s then [(n, d)] else [] | _ => [] end) l.
(** The datagrams waiting in a socket's mailbox and in its send buffer. *)
Definition inbox (st : sstate) (s : Z) : list dgram := match ss_sock st s with Some k => map fst (s_in k) | None => [] end.
Definition outbox (st : sstate) (s : Z) : list (Z * dgram) := match ss_sock st s with Some k => s_out k | None => [] end.
(** The numbers of the sends that left through an interface. *)
Definition numbers (w : which) (l : list label) : list Z := flat_map (fun x => match x with LLeft w' n _ _ => if which_eqb w' w then [n] else [] | _ => [] end) l.
(** What became of datagrams on their way, and the datagrams that set out on their way in a step. *)
Definition fates (l : list label) : list dgram := flat_map (fun x => match x with LWire d | LPut _ d | LDrop d => [d] | _ => [] end) l.
Definition leaving (l : list label) : list dgram := flat_map (fun x => match x with LLeft _ _ _ d => [d] | _ => [] end) l.
Definition entered (o : uop) (l : list label) : list dgram := match o with UArrive p _ => [payload p] | _ => leaving l end.
Fixpoint entering (ops : list uop) (ls : list (ures * list label)) : list dgram :=
  match ops, ls with
  | o :: ops, (_, l) :: ls => entered o l ++ entering ops ls
  | _, _ => []
  end.
(** The datagrams from socket [a] that were put in the mailbox of [b], without leaving the host. *)
Definition conveyed (a b : Z) (ls : list (ures * list label)) : list (Z * dgram) :=
  flat_map (fun x => match snd x with [LLeft _ n y d; LPut z _] => if (y =? a) && (z =? b) then [(n, d)] else [] | _ => [] end) ls.
(** The datagrams from the network put in the mailbox of [b], and all the datagrams from the network. *)
Fixpoint arrived (b : Z) (ops : list uop) (ls : list (ures * list label)) : list dgram :=
  match ops, ls with
  | o :: ops, (_, l) :: ls => match o with UArrive _ _ => puts b l | _ => [] end ++ arrived b ops ls
  | _, _ => []
  end.
Definition arrivals (ops : list uop) : list dgram := flat_map (fun o => match o with UArrive p _ => [payload p] | _ => [] end) ops.
Inductive subseq {A} : list A -> list A -> Prop :=
| SubNil l : subseq [] l
| SubTake x a b : subseq a b -> subseq (x :: a) (x :: b)
| SubSkip x a b : subseq a b -> subseq a (x :: b).

(** Well-formed operations: addresses are 32-bit, ports 16-bit, buffer limits and datagrams from the
    network of sane size, the latter for this host, ephemeral ports drawn from their range, no operand negative. *)
Definition addr_ok (a : addr) : Prop := 0 <= fst a <= U32_MAX /\ 0 <= snd a <= U16_MAX.
Definition op_ok (pub : Z) (o : uop) : Prop :=
  match o with
  | USocket _ out inn => 0 <= out <= U32_MAX /\ 0 <= inn <= U32_MAX
  | UBind _ a rng => (forall k, port_range (rng k)) /\ (forall x, a = Some (Some x) -> addr_ok x)
  | UConnect _ a rng => (forall k, port_range (rng k)) /\ (forall x, a = Some x -> addr_ok x)
  | USend _ x rng => (forall k, port_range (rng k)) /\ (forall y, sa_addr x = Some (Some y) -> addr_ok y)
  | URecv _ x => 0 <= ra_len x
  | UArrive p _ => fst (up_dst p) = pub /\ blen (up_data p) <= U32_MAX
  | _ => True
  end.
(** No socket is bound to a loopback address other than 127.0.0.1. *)
Definition plain (o : uop) : Prop :=
  match o with UBind _ (Some (Some a)) _ => loopback (fst a) -> fst a = LOCALHOST | _ => True end.
(** A sane public address. *)
Definition pub_ok (pub : Z) : Prop := 0 < pub <= U32_MAX /\ ~ loopback pub.

(** What listeners of socket [s] were told in a step. *)
Definition told (s : Z) (e : list uevent) : list (bits * bool) :=
  flat_map (fun x => match x with ENote y b g => if y =? s then [(b, g)] else [] | EWire _ => [] end) e.
Definition resizes (o : uop) : Prop := match o with USndBuf _ _ => True | _ => False end.

(** A host that ran [ops], ending up as [h], with results and events [rs]. *)
Definition uhost (pub : Z) (known : Z -> bool) (disc : kind) (debug : bool) (ops : list uop) (h : host) (rs : list (ures * list uevent)) : Prop :=
  pub_ok pub /\ Forall (op_ok pub) ops /\ Z.of_nat (length ops) <= U64_MAX /\ h_run debug known (h_new disc pub) ops = Some (h, rs).
(** The bytes in a buffer. *)
Definition held {H} (l : list (list Z * H)) : Z := zsum (map (fun m => blen (fst m)) l).
Definition sends_through (u : udp) (w : which) : Prop := exists b, u_bound u = Some b /\ match w with Lo => loopback (fst b) | Inet => ~ loopback (fst b) end.
(** Does the socket listen to [from]? *)
Definition peer_ok (u : udp) (from : addr) : Prop := forall a, u_peer u = Some a -> a = from.
(** Whoever sends to [at_] is heard by socket [s] of host [h], if it is open, listens to them and has room. *)
Definition answers (known : Z -> bool) (h : host) (s : Z) (at_ : addr) : Prop :=
  exists u, get s (h_socks h) = Some u /\ forall q now, b_closed (u_st u) = false -> up_dst q = at_ -> blen (up_data q) <= U32_MAX -> peer_ok u (up_src q) -> held (mb_msgs (u_recv u)) < mb_limit (u_recv u) ->
    exists h' e u', h_route known h q now = Some (h', e) /\ get s (h_socks h') = Some u' /\ mb_msgs (u_recv u') = mb_msgs (u_recv u) ++ [(up_data q, mkRh (up_src q) (up_dst q) now)].
