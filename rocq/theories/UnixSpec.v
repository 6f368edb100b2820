(** Specification of unix domain sockets: a machine without buffers, counters, listeners or
    callbacks. Each socket has a role and an inbox of messages that were sent to it and not yet read;
    a byte of a stream is a message of one byte. Every call is one atomic step. *)
From Verif Require Import Base FMap UnixModel.

Inductive role :=
| KNew                                                       (* not connected, not listening *)
| KListen (waiting : list Z) (limit : Z)                     (* connections not yet accepted *)
| KConn (peer : Z) (peer_name : option (list Z))
| KGram (to : option (Z * option (list Z)))                  (* a datagram socket, its default receiver *)
| KGone.                                                     (* closed *)
(** [k_fd]: does the program hold an open file; [k_name]: what getsockname returns; [k_in]: the
    messages with their sender and, for datagrams, its name. *)
Record ksock := mkK { k_type : utype; k_nonblock : bool; k_fd : bool; k_name : option (list Z);
                      k_role : role; k_in : list (Z * option (list Z) * list Z) }.
Record kstate := mkKs { ks : Z -> option ksock; ks_names : utype -> list Z -> option Z; ks_next : Z }.
Definition k_init : kstate := mkKs (fun _ => None) (fun _ _ => None) 0.

Definition kput (S : kstate) (x : Z) (k : ksock) : kstate :=
  mkKs (fun z => if z =? x then Some k else ks S z) (ks_names S) (ks_next S).
Definition k_set_role (k : ksock) (r : role) : ksock :=
  mkK (k_type k) (k_nonblock k) (k_fd k) (k_name k) r (k_in k).
Definition k_set_in (k : ksock) (l : list (Z * option (list Z) * list Z)) : ksock :=
  mkK (k_type k) (k_nonblock k) (k_fd k) (k_name k) (k_role k) l.
Definition gone (k : ksock) : bool := match k_role k with KGone => true | _ => false end.
Definition is_gone (S : kstate) (x : Z) : bool := match ks S x with Some k => gone k | None => true end.

(** The unread bytes that were sent by [x]. *)
Definition from_x (x : Z) (l : list (Z * option (list Z) * list Z)) : Z :=
  zsum (map (fun e => if fst (fst e) =? x then blen (snd e) else 0) l).
Definition in_flight (S : kstate) (x : Z) : Z :=
  zsum (map (fun i => match ks S (Z.of_nat i) with Some k => from_x x (k_in k) | None => 0 end)
            (seq 0 (Z.to_nat (ks_next S)))).
Definition room (S : kstate) (x : Z) : Z := send_limit - in_flight S x.

Definition new_role (t : utype) : role := match t with UDgram => KGram None | _ => KNew end.
Definition k_create (S : kstate) (k : ksock) : kstate :=
  mkKs (fun z => if z =? ks_next S then Some k else ks S z) (ks_names S) (ks_next S + 1).
Definition k_new (t : utype) (nonblock : bool) : ksock := mkK t nonblock true None (new_role t) [].

(** The socket that owns an address. *)
Definition owner (S : kstate) (t : utype) (p : list Z) : Z + uerr :=
  match p with
  | 0 :: n => match ks_names S t n with Some y => inl y | None => inr ECONNREFUSED end
  | _ => inr ENOENT
  end.
Definition would_block (k : ksock) (dontwait : bool) (x : Z) (on : waits) : ures :=
  if k_nonblock k || dontwait then RErr EAGAIN else RBlock x on.

(** Taking an abstract name. *)
Definition k_claim_name (S : kstate) (x : Z) (k : ksock) (n : list Z) : kstate :=
  mkKs (fun z => if z =? x
                 then Some (mkK (k_type k) (k_nonblock k) (k_fd k) (Some (0 :: n)) (k_role k) (k_in k))
                 else ks S z)
       (fun t m => if utype_eqb t (k_type k) && path_eqb m n then Some x else ks_names S t m) (ks_next S).
Definition taken (S : kstate) (t : utype) (n : list Z) : bool :=
  match ks_names S t n with Some _ => true | None => false end.
Definition s_bind (S : kstate) (x : Z) (k : ksock) (a : uaddr) (draws : list (Z * Z * Z * Z * Z)) : kstate * ures :=
  match k_role k with
  | KNew | KGram _ =>
      match k_name k, a with
      | Some _, _ | None, AOther => (S, RErr EINVAL)
      | None, AUnix (0 :: n) =>
          if taken S (k_type k) n then (S, RErr EADDRINUSE) else (k_claim_name S x k n, ROk)
      | None, AUnix [] =>
          match autobind_name (taken S (k_type k)) draws with
          | Some n => (k_claim_name S x k n, ROk)
          | None => (S, RErr EADDRINUSE)
          end
      | None, AUnix _ => (S, RErr ENOTSUP)
      end
  | _ => (S, RErr EOPNOTSUPP)
  end.
(** A backlog of n admits n+1 waiting connections, 4097 at most; negative ones are huge. *)
Definition queue_size (backlog : Z) : Z :=
  if (0 <=? backlog mod 4294967296) && (backlog mod 4294967296 <? 4096) then backlog mod 4294967296 + 1 else 4097.
Definition s_listen (S : kstate) (x : Z) (k : ksock) (backlog : Z) : kstate * ures :=
  match k_role k, k_name k with
  | KNew, Some _ => (kput S x (k_set_role k (KListen [] (queue_size backlog))), ROk)
  | KNew, None => (S, RErr EINVAL)
  | KListen w _, _ => (kput S x (k_set_role k (KListen w (queue_size backlog))), ROk)
  | _, _ => (S, RErr EOPNOTSUPP)
  end.
(** Connecting makes the accepting socket at once; it waits to be accepted. A datagram socket only
    remembers its receiver. [None]: the simulation crashes. *)
Definition s_connect (S : kstate) (x : Z) (k : ksock) (a : uaddr) : option (kstate * ures) :=
  match k_role k, a with
  | KNew, AOther | KGram _, AOther | KListen _ _, _ => Some (S, RErr EINVAL)
  | KNew, AUnix p =>
      match owner S (k_type k) p with
      | inr e => Some (S, RErr e)
      | inl y =>
          if y =? x then None else
          match ks S y with
          | Some srv =>
              match k_role srv with
              | KListen q lim =>
                  if lim <=? blen q then Some (S, would_block k false y WAllow) else
                  let c := ks_next S in
                  let child := mkK (k_type k) (k_nonblock srv) false (k_name srv) (KConn x (k_name k)) [] in
                  Some (kput (kput (k_create S child) y (k_set_role srv (KListen (q ++ [c]) lim)))
                             x (k_set_role k (KConn c (Some p))), ROk)
              | _ => Some (S, RErr ECONNREFUSED)
              end
          | None => None
          end
      end
  | KGram _, AUnix p =>
      match owner S (k_type k) p with
      | inr e => Some (S, RErr e)
      | inl y => Some (kput S x (k_set_role k (KGram (Some (y, Some p)))), ROk)
      end
  | _, _ => Some (S, RErr EOPNOTSUPP)
  end.
Definition addr_of (p : option (list Z)) : list Z := match p with Some p => p | None => [] end.
Definition s_accept (S : kstate) (x : Z) (k : ksock) (nonblock : bool) : option (kstate * ures) :=
  match k_role k with
  | KNew | KConn _ _ => Some (S, RErr EINVAL)
  | KListen [] _ => Some (S, would_block k false x WReadable)
  | KListen (c :: q) lim =>
      match ks S c with
      | Some ch =>
          match k_role ch with
          | KConn _ pn =>
              Some (kput (kput S x (k_set_role k (KListen q lim)))
                         c (mkK (k_type ch) (nonblock || k_nonblock ch) true (k_name ch) (k_role ch) (k_in ch)),
                    RAccepted c (addr_of pn))
          | _ => None
          end
      | None => None
      end
  | _ => Some (S, RErr EOPNOTSUPP)
  end.
(** Closing a socket: it is gone, with what it had not read and its name. *)
Definition bury (S : kstate) (x : Z) : kstate :=
  match ks S x with
  | Some k =>
      mkKs (fun z => if z =? x then Some (mkK (k_type k) (k_nonblock k) false None KGone []) else ks S z)
           (fun t n => match ks_names S t n with Some y => if y =? x then None else Some y | None => None end)
           (ks_next S)
  | None => S
  end.
Definition s_close_one (S : kstate) (x : Z) : kstate :=
  match ks S x with
  | Some k =>
      if k_fd k then
        match k_role k with
        | KListen q _ => bury (fold_left bury q S) x
        | _ => bury S x
        end
      else S
  | None => S
  end.

(** Where a message goes. *)
Definition destination (S : kstate) (k : ksock) (a : option uaddr) : Z + uerr :=
  match k_role k, a with
  | KConn _ _, Some AOther | KGram _, Some AOther => inr EINVAL
  | KConn y _, None => inl y
  | KConn y _, Some (AUnix _) => match k_type k with UStream => inr EISCONN | _ => inl y end
  | KGram _, Some (AUnix p) => owner S (k_type k) p
  | KGram (Some (y, _)), None => inl y
  | KGram None, None => inr ENOTCONN
  | KNew, Some _ => match k_type k with UStream => inr EOPNOTSUPP | _ => inr ENOTCONN end
  | KNew, None => inr ENOTCONN
  | _, _ => inr EOPNOTSUPP
  end.
(** How many of [n] bytes are accepted when there is room for [r]; [None]: none, for now. *)
Definition accepted (t : utype) (n r : Z) : option Z + uerr :=
  match t with
  | UStream => inl (if r <=? 0 then None else Some (Z.min n r))
  | _ => if r <=? 0 then inl None else if n <=? r then inl (Some n) else if n <=? send_limit then inl None else inr EMSGSIZE
  end.
Definition unconnected (k : ksock) : bool := match k_role k with KConn _ _ | KGram _ => false | _ => true end.
Definition parcels (t : utype) (x : Z) (from : option (list Z)) (data : list Z) : list (Z * option (list Z) * list Z) :=
  match t with
  | UStream => map (fun b => (x, None, [b])) data
  | USeqPacket => [(x, None, data)]
  | UDgram => [(x, from, data)]
  end.
(** [None]: the simulation crashes (a socket sends to itself). *)
Definition s_send (S : kstate) (x : Z) (k : ksock) (a : option uaddr) (control flags_ok dontwait : bool)
    (data : list Z) : option (kstate * ures) :=
  if negb (unconnected k) && control then Some (S, RErr EINVAL) else
  match destination S k a with
  | inr e => Some (S, RErr e)
  | inl y =>
      if negb flags_ok then Some (S, RErr EINVAL) else
      if x =? y then None else
      match ks S y with
      | None => None
      | Some d =>
          if gone d then Some (S, RErr (match k_type k with UDgram => ECONNREFUSED | _ => EPIPE end)) else
          match accepted (k_type k) (blen data) (room S x) with
          | inr e => Some (S, RErr e)
          | inl None => Some (S, would_block k dontwait x WWritable)
          | inl (Some n) =>
              Some (kput S y (k_set_in d (k_in d ++ parcels (k_type k) x (k_name k) (firstn (Z.to_nat n) data))), RSent n)
          end
      end
  end.
(** Reading: an empty inbox is the end of the stream if the peer is gone. A read of a stream joins
    bytes, any other takes one message and drops what does not fit. *)
Definition s_recv (S : kstate) (x : Z) (k : ksock) (control flags_ok dontwait trunc : bool) (cap : Z) : kstate * ures :=
  match k_role k with
  | KNew => (S, RErr (match k_type k with UStream => EINVAL | _ => ENOTCONN end))
  | KConn _ _ | KGram _ =>
      if control || negb flags_ok then (S, RErr EINVAL) else
      match k_in k, k_role k with
      | [], KConn y pn =>
          if is_gone S y then (S, RRecv 0 [] pn false) else (S, would_block k dontwait x WReadable)
      | [], _ => (S, would_block k dontwait x WReadable)
      | (_, from, m) :: rest, r =>
          let src := match r with KConn _ pn => pn | _ => from end in
          match k_type k with
          | UStream =>
              let out := concat (map snd (firstn (Z.to_nat cap) (k_in k))) in
              (kput S x (k_set_in k (skipn (Z.to_nat cap) (k_in k))), RRecv (blen out) out src false)
          | _ =>
              let out := firstn (Z.to_nat cap) m in
              (kput S x (k_set_in k rest),
               if trunc then RRecv (blen m) out src (blen out <? blen m) else RRecv (blen out) out src false)
          end
      end
  | _ => (S, RErr EOPNOTSUPP)
  end.
Definition s_sockname (k : ksock) : ures := RAddr (addr_of (k_name k)).
Definition s_peername (k : ksock) : ures :=
  match k_role k with
  | KConn _ pn => RAddr (addr_of pn)
  | KGram (Some (_, pn)) => RAddr (addr_of pn)
  | _ => RErr ENOTCONN
  end.

Definition s_with (S : kstate) (x : Z) (f : ksock -> option (kstate * ures)) : option (kstate * ures) :=
  match ks S x with
  | Some k => if k_fd k then f k else Some (S, RErr EBADF)
  | None => Some (S, RErr EBADF)
  end.
Definition s_step (S : kstate) (o : uop) : option (kstate * ures) :=
  match o with
  | Socket t nb => Some (k_create S (k_new t nb), RSock (ks_next S))
  | Pair t nb =>
      let x := ks_next S in
      let mate y := k_set_role (k_new t nb) (match t with UDgram => KGram (Some (y, None)) | _ => KConn y None end) in
      Some (k_create (k_create S (mate (x + 1))) (mate x), RPair x (x + 1))
  | Bind x a draws => s_with S x (fun k => Some (s_bind S x k a draws))
  | Listen x n => s_with S x (fun k => Some (s_listen S x k n))
  | Connect x a => s_with S x (fun k => s_connect S x k a)
  | Accept x nb => s_with S x (fun k => s_accept S x k nb)
  | Send x a c f d data _ => s_with S x (fun k => s_send S x k a c f d data)
  | Recv x c f d t cap _ => s_with S x (fun k => Some (s_recv S x k c f d t cap))
  | Close l => Some (fold_left s_close_one l S, ROk)
  | SockName x => s_with S x (fun k => Some (S, s_sockname k))
  | PeerName x => s_with S x (fun k => Some (S, s_peername k))
  | SetNonblock x b =>
      s_with S x (fun k => Some (kput S x (mkK (k_type k) b (k_fd k) (k_name k) (k_role k) (k_in k)), ROk))
  end.
Fixpoint s_run (S : kstate) (ops : list uop) : option (kstate * list ures) :=
  match ops with
  | [] => Some (S, [])
  | o :: ops => do (S, r) <- s_step S o; do (S, rs) <- s_run S ops; Some (S, r :: rs)
  end.

(** No memory of the program fails to be read or written. *)
Definition clean (o : uop) : Prop :=
  match o with Send _ _ _ _ _ _ f | Recv _ _ _ _ _ _ f => f = None | _ => True end.

(** What poll should say: a socket is readable when a read would not block, writable when it is
    connected and a byte could be sent without blocking or the peer is gone. *)
Definition says_readable (S : kstate) (k : ksock) : bool :=
  match k_role k with
  | KListen q _ => match q with [] => false | _ => true end
  | KConn y _ => match k_in k with [] => is_gone S y | _ => true end
  | KGram _ => match k_in k with [] => false | _ => true end
  | _ => false
  end.
Definition says_writable (S : kstate) (x : Z) (k : ksock) : bool :=
  match k_role k with
  | KConn y _ => is_gone S y || (0 <? room S x)
  | KGram _ => 0 <? room S x
  | _ => false
  end.
