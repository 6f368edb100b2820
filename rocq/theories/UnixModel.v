(** Model of src/main/host/descriptor/socket/unix.rs (unix domain sockets), of the abstract
    namespace src/main/host/descriptor/socket/abstract_unix_ns.rs, of the receive buffers
    src/main/host/descriptor/shared_buf.rs they share, of the callback queue that tells the sockets
    about each other (src/main/utility/callback_queue.rs) and of what the syscall handlers add
    (src/main/host/syscall/handler/socket.rs), for the sockets of one host.
    Bytes are integers. The byte queue inside a buffer is represented by its content, a sequence of
    bytes and messages (theorems C18 relate the two). A buffer's limit is usize::MAX, so its WRITABLE
    bit never changes and is left out. Sockets are numbered and never dropped: a callback whose weak
    pointer could no longer be upgraded finds a closed socket here. Memory of the managed program can
    fail to be read or written after some number of bytes ([fault]). [None] is a panic. Not modelled:
    readv/writev (panic), ioctl, lseek, stat, shutdown, get/setsockopt (constant errors), the flags
    MSG_NOSIGNAL and MSG_TRUNC of sends (ignored by the code), sockaddr lengths, descriptor limits. *)
From Verif Require Import Base FMap.

(* ------------------------------------------------------------------ types *)
Inductive utype := UStream | UDgram | USeqPacket.                              (* unix.rs:2380-2386 *)
Definition utype_eqb (a b : utype) : bool :=
  match a, b with UStream, UStream | UDgram, UDgram | USeqPacket, USeqPacket => true | _, _ => false end.
Lemma utype_eqb_ok a b : reflect (a = b) (utype_eqb a b).
Proof. destruct a, b; constructor; congruence. Qed.
#[global] Instance Eqb_utype : Eqb utype := {| eqb := utype_eqb; eqb_ok := utype_eqb_ok |}.
Fixpoint path_eqb (a b : list Z) : bool :=
  match a, b with [], [] => true | x :: a, y :: b => (x =? y) && path_eqb a b | _, _ => false end.
Lemma path_eqb_ok a b : reflect (a = b) (path_eqb a b).
Proof.
  revert b. induction a as [|x a IH]; destruct b as [|y b]; cbn; try (constructor; congruence).
  destruct (Z.eqb_spec x y) as [->|N]; cbn; [|constructor; congruence].
  destruct (IH b) as [->|N]; constructor; congruence.
Qed.
#[global] Instance Eqb_path : Eqb (list Z) := {| eqb := path_eqb; eqb_ok := path_eqb_ok |}.

(** A socket address: the bytes of sun_path, or an address that is not a valid unix address. *)
Inductive uaddr := AUnix (p : list Z) | AOther.
(** sockaddr.rs:356-372: the name of an abstract address *)
Definition as_abstract (p : list Z) : option (list Z) :=
  match p with 0 :: n => Some n | _ => None end.
(** sockaddr.rs:374-378 *)
Definition is_unnamed (p : list Z) : bool := match p with [] => true | _ => false end.
(** sockaddr.rs:457-473 *)
Definition new_abstract (n : list Z) : list Z := 0 :: n.

Inductive uerr := EAGAIN | EINVAL | ENOTCONN | EOPNOTSUPP | EPIPE | ECONNREFUSED | EMSGSIZE | EISCONN
  | EADDRINUSE | ENOTSUP | ENOENT | EFAULT | EBADF | EBADFD.

Definition blen (b : list Z) : Z := Z.of_nat (length b).

(* ------------------------------------------------------------------ shared buffers *)
Inductive item := IByte (b : Z) | IMsg (m : list Z).
(** The bits READABLE, NO_READERS, NO_WRITERS of a buffer's state (shared_buf.rs:255-267). *)
Record bst := mkBst { bs_r : bool; bs_nr : bool; bs_nw : bool }.
(** The listeners that unix sockets register on buffers: of a sender on its peer's buffer
    (unix.rs:1192-1203), of a connected socket on its own (1208-1223), of a datagram socket on its
    own (460-476). *)
Inductive lkind := LSend | LRecv | LDgram.
Record ubuf := mkBuf { ub_items : list item; ub_state : bst; ub_readers : Z; ub_writers : Z;
                       ub_listeners : list (lkind * Z) }.
(** What is queued: a buffer's listener with what changed; the deferred refresh of a new child
    (unix.rs:1492-1500); telling a sender that bytes were read; a socket's own listeners with the old
    and the new state and whether READ_BUFFER_GREW is signalled. *)
Record ubits := mkBits { f_active : bool; f_readable : bool; f_writable : bool; f_closed : bool; f_allow : bool }.
Inductive cb :=
| CBuf (k : lkind) (x : Z) (changed : bst) (grew : bool)
| CRefresh (x : Z)
| CInform (x : Z) (n : Z)
| CFile (x : Z) (old new : ubits) (grew : bool).

(** shared_buf.rs:19-29 *)
Definition buf_new : ubuf := mkBuf [] (mkBst false true true) 0 0 [].
(** shared_buf.rs:31-33 *)
Definition has_data (b : ubuf) : bool := match ub_items b with [] => false | _ => true end.
Definition bst_of (b : ubuf) : bst := mkBst (has_data b) (ub_readers b =? 0) (ub_writers b =? 0).
(** shared_buf.rs:186-233 *)
Definition buf_refresh (b : ubuf) (grew : bool) : ubuf * list cb :=
  let new := bst_of b in
  let ch := mkBst (xorb (bs_r new) (bs_r (ub_state b))) (xorb (bs_nr new) (bs_nr (ub_state b)))
                  (xorb (bs_nw new) (bs_nw (ub_state b))) in
  (mkBuf (ub_items b) new (ub_readers b) (ub_writers b) (ub_listeners b),
   if negb (bs_r ch || bs_nr ch || bs_nw ch) && negb grew then []
   else map (fun l => CBuf (fst l) (snd l) ch grew) (ub_listeners b)).
Definition set_items (b : ubuf) (l : list item) : ubuf :=
  mkBuf l (ub_state b) (ub_readers b) (ub_writers b) (ub_listeners b).
Definition set_counts (b : ubuf) (r w : Z) : ubuf := mkBuf (ub_items b) (ub_state b) r w (ub_listeners b).
Definition set_listeners (b : ubuf) (l : list (lkind * Z)) : ubuf :=
  mkBuf (ub_items b) (ub_state b) (ub_readers b) (ub_writers b) l.
(** shared_buf.rs:45-75 (u16 counters) *)
Definition add_reader (b : ubuf) : option (ubuf * list cb) :=
  check (ub_readers b <? U16_MAX); Some (buf_refresh (set_counts b (ub_readers b + 1) (ub_writers b)) false).
Definition remove_reader (b : ubuf) : option (ubuf * list cb) :=
  check (1 <=? ub_readers b); Some (buf_refresh (set_counts b (ub_readers b - 1) (ub_writers b)) false).
Definition add_writer (b : ubuf) : option (ubuf * list cb) :=
  check (ub_writers b <? U16_MAX); Some (buf_refresh (set_counts b (ub_readers b) (ub_writers b + 1)) false).
Definition remove_writer (b : ubuf) : option (ubuf * list cb) :=
  check (1 <=? ub_writers b); Some (buf_refresh (set_counts b (ub_readers b) (ub_writers b - 1)) false).
(** shared_buf.rs:157-177, callback_queue.rs:198-213 *)
Definition add_listener (b : ubuf) (k : lkind) (x : Z) : ubuf := set_listeners b (ub_listeners b ++ [(k, x)]).
Definition lkind_eqb (a b : lkind) : bool :=
  match a, b with LSend, LSend | LRecv, LRecv | LDgram, LDgram => true | _, _ => false end.
Fixpoint drop_first (k : lkind) (x : Z) (l : list (lkind * Z)) : list (lkind * Z) :=
  match l with
  | [] => []
  | h :: r => if lkind_eqb k (fst h) && (x =? snd h) then r else h :: drop_first k x r
  end.
Definition remove_listener (b : ubuf) (k : lkind) (x : Z) : ubuf :=
  set_listeners b (drop_first k x (ub_listeners b)).

Definition faulty (fault : option Z) (n : Z) : option Z :=
  match fault with Some k => if k <? n then Some k else None | None => None end.
(** shared_buf.rs:107-133; the bytes read from memory before a fault stay in the queue, without the
    state being refreshed *)
Definition write_stream (b : ubuf) (data : list Z) (fault : option Z) : ubuf * list cb * (Z + uerr) :=
  match faulty fault (blen data) with
  | Some k => (set_items b (ub_items b ++ map IByte (firstn (Z.to_nat k) data)), [], inr EFAULT)
  | None =>
      let (b', cs) := buf_refresh (set_items b (ub_items b ++ map IByte data)) (0 <? blen data) in
      (b', cs, inl (blen data))
  end.
(** shared_buf.rs:135-155 *)
Definition write_packet (b : ubuf) (data : list Z) (fault : option Z) : ubuf * list cb * (unit + uerr) :=
  match faulty fault (blen data) with
  | Some _ => (b, [], inr EFAULT)
  | None => let (b', cs) := buf_refresh (set_items b (ub_items b ++ [IMsg data])) true in (b', cs, inl tt)
  end.
(** The bytes before the first message of a queue. *)
Fixpoint stream_part (l : list item) : list Z :=
  match l with IByte b :: r => b :: stream_part r | _ => [] end.
(** shared_buf.rs:91-105 with byte_queue.rs:173-281: returns the bytes given to the program, and the
    number of bytes removed, or an error; an error returns before the refresh *)
Definition buf_read (b : ubuf) (cap : Z) (fault : option Z) : ubuf * list cb * (list Z * Z + uerr) :=
  let done l (out : list Z) (n : Z) : ubuf * list cb * (list Z * Z + uerr) :=
    let (b', cs) := buf_refresh (set_items b l) false in (b', cs, inl (out, n)) in
  match ub_items b with
  | [] => done [] [] 0
  | IMsg m :: r =>
      let out := firstn (Z.to_nat cap) m in
      match faulty fault (blen out) with
      | Some _ => (set_items b r, [], inr EFAULT)
      | None => done r out (blen m)
      end
  | IByte _ :: _ =>
      let out := firstn (Z.to_nat cap) (stream_part (ub_items b)) in
      match faulty fault (blen out) with
      | Some k => (set_items b (skipn (Z.to_nat k) (ub_items b)), [], inr EFAULT)
      | None => done (skipn (length out) (ub_items b)) out (blen out)
      end
  end.

(* ------------------------------------------------------------------ sockets *)
(** unix.rs:366-416; the dgram state's peer and the entries of its recv_data (from_socket, from_addr,
    num_bytes; 2421-2425) *)
Inductive proto :=
| PInitial (bound : option (list Z))
| PListening (bound : list Z) (queue : list Z) (limit : Z)
| PConnected (bound peer_addr : option (list Z)) (peer : Z)
| PConnClosed
| PDgram (bound peer_addr : option (list Z)) (peer : option Z) (recv : list (Z * option (list Z) * Z))
| PDgramClosed.
(** unix.rs:36-41, 1974-1989; [us_claim]: the name whose removal the namespace registered for the
    closing of the socket (abstract_unix_ns.rs:83-87); [us_fd]: does the program hold an open file *)
Record usock := mkS { us_type : utype; us_nonblock : bool; us_sent : Z; us_bits : ubits; us_buf : ubuf;
                      us_claim : option (list Z); us_fd : bool; us_proto : proto }.
Record world := mkW { w_socks : fmap Z usock; w_names : fmap (utype * list Z) Z; w_next : Z }.

(** unix.rs:30, 56 *)
Definition send_limit : Z := 212992.
Definition no_bits : ubits := mkBits false false false false false.
Definition active : ubits := mkBits true false false false false.

Definition set_buf (s : usock) (b : ubuf) : usock :=
  mkS (us_type s) (us_nonblock s) (us_sent s) (us_bits s) b (us_claim s) (us_fd s) (us_proto s).
Definition set_proto (s : usock) (p : proto) : usock :=
  mkS (us_type s) (us_nonblock s) (us_sent s) (us_bits s) (us_buf s) (us_claim s) (us_fd s) p.
Definition set_bits (s : usock) (b : ubits) : usock :=
  mkS (us_type s) (us_nonblock s) (us_sent s) b (us_buf s) (us_claim s) (us_fd s) (us_proto s).
Definition set_sent (s : usock) (n : Z) : usock :=
  mkS (us_type s) (us_nonblock s) n (us_bits s) (us_buf s) (us_claim s) (us_fd s) (us_proto s).
Definition set_claim (s : usock) (c : option (list Z)) : usock :=
  mkS (us_type s) (us_nonblock s) (us_sent s) (us_bits s) (us_buf s) c (us_fd s) (us_proto s).
Definition set_fd (s : usock) (b : bool) : usock :=
  mkS (us_type s) (us_nonblock s) (us_sent s) (us_bits s) (us_buf s) (us_claim s) b (us_proto s).
Definition set_nonblock (s : usock) (b : bool) : usock :=
  mkS (us_type s) b (us_sent s) (us_bits s) (us_buf s) (us_claim s) (us_fd s) (us_proto s).

Definition sock (w : world) (x : Z) : option usock := get x (w_socks w).
Definition upd (w : world) (x : Z) (s : usock) : world := mkW (put x s (w_socks w)) (w_names w) (w_next w).
(** Change the buffer of a socket. *)
Definition on_buf (w : world) (x : Z) (f : ubuf -> option (ubuf * list cb)) : option (world * list cb) :=
  do s <- sock w x; do (b, cs) <- f (us_buf s); Some (upd w x (set_buf s b), cs).
Definition listen_on (w : world) (owner : Z) (k : lkind) (x : Z) : option (world * list cb) :=
  on_buf w owner (fun b => Some (add_listener b k x, [])).
Definition unlisten (w : world) (owner : Z) (k : lkind) (x : Z) : option (world * list cb) :=
  on_buf w owner (fun b => Some (remove_listener b k x, [])).

Definition bits_eqb (a b : ubits) : bool :=
  Bool.eqb (f_active a) (f_active b) && Bool.eqb (f_readable a) (f_readable b) &&
  Bool.eqb (f_writable a) (f_writable b) && Bool.eqb (f_closed a) (f_closed b) &&
  Bool.eqb (f_allow a) (f_allow b).
(** unix.rs:2316-2347 *)
Definition update_state (w : world) (x : Z) (s : usock) (b : ubits) (grew : bool) : world * list cb :=
  (upd w x (set_bits s b),
   if bits_eqb b (us_bits s) && negb grew then [] else [CFile x (us_bits s) b grew]).
(** unix.rs:401-405 *)
Definition queue_full (q : list Z) (limit : Z) : bool := limit <=? blen q.
(** The [refresh_file_state] of each state: unix.rs:1031-1044, 1336-1361, 1523-1552, 1673-1686,
    1719-1740, 1940-1953 *)
Definition refresh (w : world) (x : Z) (grew : bool) : option (world * list cb) :=
  do s <- sock w x;
  match us_proto s with
  | PInitial _ => check (negb grew); Some (update_state w x s active grew)
  | PListening _ q lim =>
      Some (update_state w x s (mkBits true (negb (Nat.eqb (length q) 0)) false false (negb (queue_full q lim))) grew)
  | PConnected _ _ y =>
      do p <- sock w y;
      Some (update_state w x s
              (mkBits true (has_data (us_buf s) || (ub_writers (us_buf s) =? 0))
                      ((us_sent s <? send_limit) || (ub_readers (us_buf p) =? 0)) false false) grew)
  | PDgram _ _ _ _ =>
      Some (update_state w x s (mkBits true (has_data (us_buf s)) (us_sent s <? send_limit) false false) grew)
  | PConnClosed | PDgramClosed =>
      check (negb grew); Some (update_state w x s (mkBits false false false true false) grew)
  end.

(* ------------------------------------------------------------------ callbacks *)
(** What listeners outside the sockets (epoll, blocked system calls) are told. *)
Definition note : Type := Z * ubits * ubits * bool.
(** unix.rs:1634-1642, 1859-1867, 1697-1704, 1964-1971, and the default 939-949 *)
Definition inform (w : world) (x : Z) (n : Z) : option (world * list cb) :=
  do s <- sock w x;
  match us_proto s with
  | PConnected _ _ _ | PDgram _ _ _ _ =>
      check (n <=? us_sent s); refresh (upd w x (set_sent s (us_sent s - n))) x false
  | PConnClosed | PDgramClosed => Some (w, [])
  | PInitial _ | PListening _ _ _ => None
  end.
(** abstract_unix_ns.rs:166-181; its caller asserts that the name is there (86) *)
Definition unbind (w : world) (t : utype) (n : list Z) : option world :=
  check (mem (t, n) (w_names w)); Some (mkW (w_socks w) (del (t, n) (w_names w)) (w_next w)).
(** Running one callback: the listeners of buffers with their filters (shared_buf.rs:164-176), and
    the namespace's listener for CLOSED going from off to on (abstract_unix_ns.rs:184-200). *)
Definition run_cb (w : world) (c : cb) : option (world * list cb * list note) :=
  match c with
  | CBuf LSend x ch grew =>
      if bs_nr ch then do (w, cs) <- refresh w x false; Some (w, cs, []) else Some (w, [], [])
  | CBuf LRecv x ch grew =>
      if bs_r ch || bs_nw ch || grew then do (w, cs) <- refresh w x grew; Some (w, cs, []) else Some (w, [], [])
  | CBuf LDgram x ch grew =>
      if bs_r ch || grew then do (w, cs) <- refresh w x grew; Some (w, cs, []) else Some (w, [], [])
  | CRefresh x => do (w, cs) <- refresh w x false; Some (w, cs, [])
  | CInform x n => do (w, cs) <- inform w x n; Some (w, cs, [])
  | CFile x old new grew =>
      do s <- sock w x;
      do w <- (if f_closed new && negb (f_closed old)
               then match us_claim s with Some n => unbind w (us_type s) n | None => Some w end
               else Some w);
      Some (w, [], [(x, old, new, grew)])
  end.
(** callback_queue.rs:38-52; [fuel] bounds the number of callbacks *)
Fixpoint run_cbs (fuel : nat) (w : world) (q : list cb) : option (world * list note) :=
  match q with
  | [] => Some (w, [])
  | c :: q =>
      match fuel with
      | O => None
      | S fuel =>
          do (w, cs, ns) <- run_cb w c;
          do (w, ns') <- run_cbs fuel w (q ++ cs);
          Some (w, ns ++ ns')
      end
  end.
(** A callback other than a socket's own listeners queues at most one callback, which is such. *)
Definition weight (c : cb) : nat := match c with CFile _ _ _ _ => 1 | _ => 2 end.
Definition run_queue (w : world) (q : list cb) : option (world * list note) :=
  run_cbs (list_sum (map weight q)) w q.

(* ------------------------------------------------------------------ creating, naming *)
(** unix.rs:44-75, 439-491 *)
Definition new_sock (w : world) (t : utype) (nonblock fd : bool) : option (world * Z) :=
  let x := w_next w in
  do (b, p) <- match t with
               | UStream | USeqPacket => Some (buf_new, PInitial None)
               | UDgram => do (b, cs) <- add_reader buf_new;
                           check (Nat.eqb (length cs) 0);
                           Some (add_listener b LDgram x, PDgram None None None [])
               end;
  Some (mkW (put x (mkS t nonblock 0 active b None fd p) (w_socks w)) (w_names w) (x + 1), x).

(** abstract_unix_ns.rs:235-236: "abcdef0123456789" *)
Definition CHARSET : list Z := [97; 98; 99; 100; 101; 102; 48; 49; 50; 51; 52; 53; 54; 55; 56; 57].
Definition letter (d : Z) : Z := nth (Z.to_nat (d mod 16)) CHARSET 0.
(** abstract_unix_ns.rs:253-272 with L = 5 *)
Definition incremental_name (i : Z) : list Z :=
  [letter (i / 65536); letter (i / 4096); letter (i / 256); letter (i / 16); letter i].
(** abstract_unix_ns.rs:239-248; [draw]: the five numbers drawn *)
Definition random_name (draw : Z * Z * Z * Z * Z) : list Z :=
  let '(a, b, c, d, e) := draw in [letter a; letter b; letter c; letter d; letter e].
(** abstract_unix_ns.rs:122-136 *)
Fixpoint linear_search (fuel : nat) (i : Z) (taken : list Z -> bool) : option (list Z) :=
  match fuel with
  | O => None
  | S fuel => let n := incremental_name i in if taken n then linear_search fuel (i + 1) taken else Some n
  end.
Definition N_NAMES : Z := 1048576.
(** abstract_unix_ns.rs:94-164; [draws]: the random numbers *)
Definition autobind_name (taken : list Z -> bool) (draws : list (Z * Z * Z * Z * Z)) : option (list Z) :=
  match find (fun n => negb (taken n)) (map random_name (firstn 10 draws)) with
  | Some n => Some n
  | None => linear_search (Z.to_nat N_NAMES) 0 taken
  end.
(** abstract_unix_ns.rs:48-62 *)
Definition lookup (w : world) (t : utype) (n : list Z) : option Z := get (t, n) (w_names w).
(** abstract_unix_ns.rs:64-92 *)
Definition ns_bind (w : world) (x : Z) (s : usock) (n : list Z) : option world :=
  if mem (us_type s, n) (w_names w) then None
  else Some (mkW (put x (set_claim s (Some n)) (w_socks w)) (put (us_type s, n) x (w_names w)) (w_next w)).
(** unix.rs:2015-2061 *)
Definition common_bind (w : world) (x : Z) (s : usock) (a : uaddr) (draws : list (Z * Z * Z * Z * Z))
  : world * (list Z + uerr) :=
  match a with
  | AOther => (w, inr EINVAL)
  | AUnix p =>
      match as_abstract p with
      | Some n => match ns_bind w x s n with Some w => (w, inl p) | None => (w, inr EADDRINUSE) end
      | None =>
          if is_unnamed p then
            match autobind_name (fun n => mem (us_type s, n) (w_names w)) draws with
            | Some n => match ns_bind w x s n with Some w => (w, inl (new_abstract n)) | None => (w, inr EADDRINUSE) end
            | None => (w, inr EADDRINUSE)
            end
          else (w, inr ENOTSUP)
      end
  end.
(** unix.rs:2350-2365 *)
Definition lookup_address (w : world) (t : utype) (p : list Z) : Z + uerr :=
  match as_abstract p with
  | Some n => match lookup w t n with Some y => inl y | None => inr ECONNREFUSED end
  | None => inr ENOENT
  end.
(** unix.rs:2367-2378; SHADOW_SOMAXCONN is 4096 (core/definitions.h:17) *)
Definition backlog_to_queue_size (backlog : Z) : Z :=
  Z.min (Z.min (backlog mod 4294967296) 4096 + 1) U32_MAX.

(* ------------------------------------------------------------------ results *)
Inductive waits := WReadable | WWritable | WAllow.
Inductive ures :=
| ROk
| RSock (x : Z)
| RPair (x y : Z)
| RAccepted (x : Z) (from : list Z)
| RSent (n : Z)
| RRecv (n : Z) (data : list Z) (from : option (list Z)) (trunc : bool)
| RAddr (p : list Z)
| RErr (e : uerr)
| RBlock (x : Z) (on : waits).
Definition answer : Type := option (world * list cb * ures).

(* ------------------------------------------------------------------ bind, listen, names *)
(** unix.rs:1056-1070, 1768-1782; other states: the default 904-913 *)
Definition u_bind (w : world) (x : Z) (s : usock) (a : uaddr) (draws : list (Z * Z * Z * Z * Z)) : answer :=
  match us_proto s with
  | PInitial (Some _) | PDgram (Some _) _ _ _ => Some (w, [], RErr EINVAL)
  | PInitial None =>
      match common_bind w x s a draws with
      | (w, inr e) => Some (w, [], RErr e)
      | (w, inl p) => do s <- sock w x; Some (upd w x (set_proto s (PInitial (Some p))), [], ROk)
      end
  | PDgram None pa peer r =>
      match common_bind w x s a draws with
      | (w, inr e) => Some (w, [], RErr e)
      | (w, inl p) => do s <- sock w x; Some (upd w x (set_proto s (PDgram (Some p) pa peer r)), [], ROk)
      end
  | _ => Some (w, [], RErr EOPNOTSUPP)
  end.
(** unix.rs:1119-1141, 1380-1392; other states: the default 962-970 *)
Definition u_listen (w : world) (x : Z) (s : usock) (backlog : Z) : answer :=
  match us_proto s with
  | PInitial None => Some (w, [], RErr EINVAL)
  | PInitial (Some b) =>
      do (w, cs) <- refresh (upd w x (set_proto s (PListening b [] (backlog_to_queue_size backlog)))) x false;
      Some (w, cs, ROk)
  | PListening b q _ =>
      do (w, cs) <- refresh (upd w x (set_proto s (PListening b q (backlog_to_queue_size backlog)))) x false;
      Some (w, cs, ROk)
  | _ => Some (w, [], RErr EOPNOTSUPP)
  end.
(** unix.rs:97-114 with the states' bound_address and peer_address *)
Definition opt_addr (p : option (list Z)) : list Z := match p with Some p => p | None => [] end.
Definition u_sockname (s : usock) : ures :=
  match us_proto s with
  | PInitial b | PConnected b _ _ | PDgram b _ _ _ => RAddr (opt_addr b)
  | PListening b _ _ => RAddr b
  | PConnClosed => RErr EBADFD
  | PDgramClosed => RAddr []
  end.
Definition u_peername (s : usock) : ures :=
  match us_proto s with
  | PConnected _ pa _ => RAddr (opt_addr pa)
  | PDgram _ pa (Some _) _ => RAddr (opt_addr pa)
  | PDgramClosed => RAddr []
  | _ => RErr ENOTCONN
  end.

(* ------------------------------------------------------------------ connecting *)
(** unix.rs:1420-1511; [w] already holds the listening socket [y] with queue [q] *)
Definition queue_incoming (w : world) (y : Z) (srv : usock) (bound : list Z) (q : list Z) (lim : Z)
    (from : option (list Z)) (x : Z) : option (world * list cb * Z) :=
  do (w, c) <- new_sock w (us_type srv) (us_nonblock srv) false;
  do (w, _) <- listen_on w x LSend c;
  do (w, cs1) <- on_buf w x add_writer;
  do (w, _) <- listen_on w c LRecv c;
  do (w, cs2) <- on_buf w c add_reader;
  do ch <- sock w c;
  let w := upd w c (set_proto ch (PConnected (Some bound) from x)) in
  do srv <- sock w y;
  do (w, cs3) <- refresh (upd w y (set_proto srv (PListening bound (q ++ [c]) lim))) y false;
  Some (w, cs1 ++ cs2 ++ [CRefresh c] ++ cs3, c).
(** unix.rs:1143-1248 (initial), 1394-1402 (listening), 1879-1906 (dgram), default 972-981.
    [server.borrow_mut()] panics when the server is the connecting socket itself. *)
Definition u_connect (w : world) (x : Z) (s : usock) (a : uaddr) : answer :=
  match us_proto s with
  | PInitial bound =>
      match a with
      | AOther => Some (w, [], RErr EINVAL)
      | AUnix p =>
          match lookup_address w (us_type s) p with
          | inr e => Some (w, [], RErr e)
          | inl y =>
              check (negb (y =? x));
              do srv <- sock w y;
              match us_proto srv with
              | PListening sb q lim =>
                  if queue_full q lim then
                    check (negb (f_allow (us_bits srv)));
                    Some (w, [], if us_nonblock s then RErr EAGAIN else RBlock y WAllow)
                  else
                    check (f_allow (us_bits srv));
                    do (w, cs1, c) <- queue_incoming w y srv sb q lim bound x;
                    do (w, _) <- listen_on w c LSend x;
                    do (w, cs2) <- on_buf w c add_writer;
                    do (w, _) <- listen_on w x LRecv x;
                    do (w, cs3) <- on_buf w x add_reader;
                    do s <- sock w x;
                    do (w, cs4) <- refresh (upd w x (set_proto s (PConnected bound (Some p) c))) x false;
                    Some (w, cs1 ++ cs2 ++ cs3 ++ cs4, ROk)
              | _ => Some (w, [], RErr ECONNREFUSED)
              end
          end
      end
  | PListening _ _ _ => Some (w, [], RErr EINVAL)
  | PDgram b _ _ r =>
      match a with
      | AOther => Some (w, [], RErr EINVAL)
      | AUnix p =>
          match lookup_address w (us_type s) p with
          | inr e => Some (w, [], RErr e)
          | inl y =>
              do (w, cs) <- refresh (upd w x (set_proto s (PDgram b (Some p) (Some y) r))) x false;
              Some (w, cs, ROk)
          end
      end
  | _ => Some (w, [], RErr EOPNOTSUPP)
  end.
(** unix.rs:1250-1315, 1908-1928 *)
Definition connect_unnamed (w : world) (x y : Z) : option (world * list cb) :=
  do s <- sock w x;
  match us_proto s with
  | PInitial None =>
      do (w, _) <- listen_on w y LSend x;
      do (w, cs1) <- on_buf w y add_writer;
      do (w, _) <- listen_on w x LRecv x;
      do (w, cs2) <- on_buf w x add_reader;
      do s <- sock w x;
      do (w, cs3) <- refresh (upd w x (set_proto s (PConnected None None y))) x false;
      Some (w, cs1 ++ cs2 ++ cs3)
  | PDgram None None _ r => refresh (upd w x (set_proto s (PDgram None None (Some y) r))) x false
  | _ => None
  end.
(** unix.rs:300-337 *)
Definition u_pair (w : world) (t : utype) (nonblock : bool) : answer :=
  do (w, x) <- new_sock w t nonblock true;
  do (w, y) <- new_sock w t nonblock true;
  do (w, cs1) <- connect_unnamed w x y;
  do (w, cs2) <- connect_unnamed w y x;
  Some (w, cs1 ++ cs2, RPair x y).
(** unix.rs:1404-1418, 1317-1324, 1654-1661, default 997-1004, with socket.rs:734-812: the accepted
    socket gets an open file, and NONBLOCK when asked for *)
Definition u_accept (w : world) (x : Z) (s : usock) (nonblock : bool) : answer :=
  match us_proto s with
  | PInitial _ | PConnected _ _ _ => Some (w, [], RErr EINVAL)
  | PListening b q lim =>
      match q with
      | [] => Some (w, [], if us_nonblock s then RErr EAGAIN else RBlock x WReadable)
      | c :: q =>
          do (w, cs) <- refresh (upd w x (set_proto s (PListening b q lim))) x false;
          do ch <- sock w c;
          match u_peername ch with
          | RAddr p =>
              let ch := if nonblock then set_nonblock ch true else ch in
              Some (upd w c (set_fd ch true), cs, RAccepted c p)
          | _ => None
          end
      end
  | _ => Some (w, [], RErr EOPNOTSUPP)
  end.

(* ------------------------------------------------------------------ closing *)
(** unix.rs:1046-1054, 1554-1575, 1742-1766, 1688-1695, 1955-1962. [held]: the sockets mutably
    borrowed by the callers; reading the peer would panic if it were one of them. *)
Definition close_basic (held : list Z) (w : world) (x : Z) : option (world * list cb) :=
  do s <- sock w x;
  match us_proto s with
  | PInitial _ => refresh (upd w x (set_proto s PConnClosed)) x false
  | PConnected _ _ y =>
      do (w, cs1) <- on_buf w x remove_reader;
      check (negb (existsb (Z.eqb y) (x :: held)));
      do (w, cs2) <- on_buf w y remove_writer;
      do s <- sock w x;
      do (w, cs3) <- refresh (upd w x (set_proto s PConnClosed)) x false;
      do (w, _) <- unlisten w x LRecv x;
      do (w, _) <- unlisten w y LSend x;
      Some (w, cs1 ++ cs2 ++ cs3)
  | PDgram _ _ _ r =>
      do (w, cs1) <- on_buf w x remove_reader;
      let cs2 := map (fun e => CInform (fst (fst e)) (snd e)) r in
      do s <- sock w x;
      do (w, cs3) <- refresh (upd w x (set_proto s PDgramClosed)) x false;
      do (w, _) <- unlisten w x LDgram x;
      Some (w, cs1 ++ cs2 ++ cs3)
  | PListening _ _ _ | PConnClosed | PDgramClosed => None
  end.
Fixpoint close_all (held : list Z) (w : world) (l : list Z) : option (world * list cb) :=
  match l with
  | [] => Some (w, [])
  | x :: l => do (w, cs1) <- close_basic held w x; do (w, cs2) <- close_all held w l; Some (w, cs1 ++ cs2)
  end.
(** unix.rs:1363-1378: a listening socket first closes the connections in its queue (which are
    connected sockets, so that the recursion is one level deep) *)
Definition close_sock (w : world) (x : Z) : option (world * list cb) :=
  do s <- sock w x;
  match us_proto s with
  | PListening _ q _ =>
      do (w, cs1) <- close_all [x] w q;
      do s <- sock w x;
      do (w, cs2) <- refresh (upd w x (set_proto s PConnClosed)) x false;
      Some (w, cs1 ++ cs2)
  | _ => close_basic [] w x
  end.
(** Closing the open files of several sockets with one callback queue, as when a process exits
    (descriptor_table.rs:239-260); sockets without an open file are passed over. *)
Fixpoint close_files (w : world) (l : list Z) : option (world * list cb) :=
  match l with
  | [] => Some (w, [])
  | x :: l =>
      match sock w x with
      | Some s =>
          if us_fd s then
            do (w, cs1) <- close_sock (upd w x (set_fd s false)) x;
            do (w, cs2) <- close_files w l;
            Some (w, cs1 ++ cs2)
          else close_files w l
      | None => close_files w l
      end
  end.

(* ------------------------------------------------------------------ sending and receiving *)
(** unix.rs:2063-2108 *)
Definition resolve (w : world) (t : utype) (peer : option Z) (a : option uaddr) : Z + uerr :=
  match a with
  | Some AOther => inr EINVAL
  | _ =>
      match peer, a with
      | Some y, Some (AUnix p) =>
          match t with
          | UStream => inr EISCONN
          | USeqPacket => inl y
          | UDgram => lookup_address w t p
          end
      | Some y, _ => inl y
      | None, Some (AUnix p) =>
          match t with
          | UStream => inr EOPNOTSUPP
          | USeqPacket => inr ENOTCONN
          | UDgram => lookup_address w t p
          end
      | None, _ => inr ENOTCONN
      end
  end.
(** unix.rs:2110-2225; [flags_ok]: only supported flags are set. [peer.borrow()] panics when the
    receiver is the sending socket itself. The result is the number of bytes, an error, or [None] for
    blocking. *)
Definition common_send (w : world) (x y : Z) (flags_ok dontwait : bool) (data : list Z) (fault : option Z)
  : option (world * list cb * (Z + option uerr)) :=
  do s <- sock w x;
  if negb flags_ok then Some (w, [], inr (Some EINVAL)) else
  check (negb (x =? y));
  do p <- sock w y;
  let err e := Some (w, [], inr (Some e)) in
  let again := Some (w, [], inr (if us_nonblock s || dontwait then Some EAGAIN else None)) in
  if ub_readers (us_buf p) =? 0 then err (match us_type s with UDgram => ECONNREFUSED | _ => EPIPE end) else
  let len := blen data in
  let space := Z.max (send_limit - us_sent s) 0 in
  if space =? 0 then again else
  match us_type s with
  | UStream =>
      let len := Z.min len space in
      if len =? 0 then Some (w, [], inl 0) else
      let '(b, cs, r) := write_stream (us_buf p) (firstn (Z.to_nat len) data) fault in
      let w := upd w y (set_buf p b) in
      match r with
      | inr e => Some (w, cs, inr (Some e))
      | inl n => do s <- sock w x; Some (upd w x (set_sent s (us_sent s + n)), cs, inl n)
      end
  | UDgram | USeqPacket =>
      if len <=? space then
        let '(b, cs, r) := write_packet (us_buf p) data fault in
        let w := upd w y (set_buf p b) in
        match r with
        | inr e => Some (w, cs, inr (Some e))
        | inl _ => do s <- sock w x; Some (upd w x (set_sent s (us_sent s + len)), cs, inl len)
        end
      else if len <=? send_limit then again else err EMSGSIZE
  end.
(** unix.rs:1072-1089 (initial), 1577-1596 (connected), 1784-1819 (dgram), default 915-925 *)
Definition u_send (w : world) (x : Z) (s : usock) (a : option uaddr) (control flags_ok dontwait : bool)
    (data : list Z) (fault : option Z) : answer :=
  match us_proto s with
  | PInitial _ =>
      match us_type s, a with
      | UStream, Some _ => Some (w, [], RErr EOPNOTSUPP)
      | UStream, None | USeqPacket, _ => Some (w, [], RErr ENOTCONN)
      | UDgram, _ => None
      end
  | PConnected _ _ peer =>
      if control then Some (w, [], RErr EINVAL) else
      match resolve w (us_type s) (Some peer) a with
      | inr e => Some (w, [], RErr e)
      | inl y =>
          do (w, cs1, r) <- common_send w x y flags_ok dontwait data fault;
          match r with
          | inr (Some e) => Some (w, cs1, RErr e)
          | inr None => Some (w, cs1, RBlock x WWritable)
          | inl n => do (w, cs2) <- refresh w x false; Some (w, cs1 ++ cs2, RSent n)
          end
      end
  | PDgram bound _ peer _ =>
      if control then Some (w, [], RErr EINVAL) else
      match resolve w (us_type s) peer a with
      | inr e => Some (w, [], RErr e)
      | inl y =>
          do (w, cs1, r) <- common_send w x y flags_ok dontwait data fault;
          match r with
          | inr (Some e) => Some (w, cs1, RErr e)
          | inr None => Some (w, cs1, RBlock x WWritable)
          | inl n =>
              do p <- sock w y;
              do w <- match us_proto p with
                      | PDgram b pa q r => Some (upd w y (set_proto p (PDgram b pa q (r ++ [(x, bound, n)]))))
                      | _ => None
                      end;
              do (w, cs2) <- refresh w x false;
              Some (w, cs1 ++ cs2, RSent n)
          end
      end
  | _ => Some (w, [], RErr EOPNOTSUPP)
  end.
(** unix.rs:2227-2304: (returned value, bytes, number removed, MSG_TRUNC in msg_flags), an error, or
    [None] for blocking *)
Definition common_recv (w : world) (x : Z) (flags_ok dontwait trunc : bool) (cap : Z) (fault : option Z)
  : option (world * list cb * (Z * list Z * Z * bool + option uerr)) :=
  do s <- sock w x;
  if negb flags_ok then Some (w, [], inr (Some EINVAL)) else
  let b := us_buf s in
  if negb (has_data b) && (utype_eqb (us_type s) UDgram || (0 <? ub_writers b)) then
    Some (w, [], inr (if us_nonblock s || dontwait then Some EAGAIN else None))
  else
    let '(b, cs, r) := buf_read b cap fault in
    let w := upd w x (set_buf s b) in
    match r with
    | inr e => Some (w, cs, inr (Some e))
    | inl (out, removed) =>
        if trunc && negb (utype_eqb (us_type s) UStream)
        then Some (w, cs, inl (removed, out, removed, blen out <? removed))
        else Some (w, cs, inl (blen out, out, removed, false))
    end.
(** unix.rs:1091-1107, 1598-1632, 1821-1857, default 927-937 *)
Definition u_recv (w : world) (x : Z) (s : usock) (control flags_ok dontwait trunc : bool) (cap : Z)
    (fault : option Z) : answer :=
  match us_proto s with
  | PInitial _ =>
      match us_type s with
      | UStream => Some (w, [], RErr EINVAL)
      | USeqPacket => Some (w, [], RErr ENOTCONN)
      | UDgram => None
      end
  | PConnected _ pa peer =>
      if control then Some (w, [], RErr EINVAL) else
      do (w, cs1, r) <- common_recv w x flags_ok dontwait trunc cap fault;
      match r with
      | inr (Some e) => Some (w, cs1, RErr e)
      | inr None => Some (w, cs1, RBlock x WReadable)
      | inl (n, out, removed, tr) =>
          let cs2 := if 0 <? removed then [CInform peer removed] else [] in
          do (w, cs3) <- refresh w x false;
          Some (w, cs1 ++ cs2 ++ cs3, RRecv n out pa tr)
      end
  | PDgram _ _ _ _ =>
      if control then Some (w, [], RErr EINVAL) else
      do (w, cs1, r) <- common_recv w x flags_ok dontwait trunc cap fault;
      match r with
      | inr (Some e) => Some (w, cs1, RErr e)
      | inr None => Some (w, cs1, RBlock x WReadable)
      | inl (n, out, removed, tr) =>
          do s <- sock w x;
          match us_proto s with
          | PDgram b pa peer ((from, addr, num) :: rest) =>
              check (removed =? num);
              do (w, cs3) <- refresh (upd w x (set_proto s (PDgram b pa peer rest))) x false;
              Some (w, cs1 ++ [CInform from num] ++ cs3, RRecv n out addr tr)
          | _ => None
          end
      end
  | _ => Some (w, [], RErr EOPNOTSUPP)
  end.

(* ------------------------------------------------------------------ system calls *)
Inductive uop :=
| Socket (t : utype) (nonblock : bool)
| Pair (t : utype) (nonblock : bool)
| Bind (x : Z) (a : uaddr) (draws : list (Z * Z * Z * Z * Z))
| Listen (x : Z) (backlog : Z)
| Connect (x : Z) (a : uaddr)
| Accept (x : Z) (nonblock : bool)
| Send (x : Z) (a : option uaddr) (control flags_ok dontwait : bool) (data : list Z) (fault : option Z)
| Recv (x : Z) (control flags_ok dontwait trunc : bool) (cap : Z) (fault : option Z)
| Close (l : list Z)
| SockName (x : Z)
| PeerName (x : Z)
| SetNonblock (x : Z) (b : bool).
(** The socket behind an open file; EBADF otherwise. *)
Definition with_fd (w : world) (x : Z) (f : usock -> answer) : answer :=
  match sock w x with
  | Some s => if us_fd s then f s else Some (w, [], RErr EBADF)
  | None => Some (w, [], RErr EBADF)
  end.
Definition syscall (w : world) (o : uop) : answer :=
  match o with
  | Socket t nb => do (w, x) <- new_sock w t nb true; Some (w, [], RSock x)
  | Pair t nb => u_pair w t nb
  | Bind x a draws => with_fd w x (fun s => u_bind w x s a draws)
  | Listen x n => with_fd w x (fun s => u_listen w x s n)
  | Connect x a => with_fd w x (fun s => u_connect w x s a)
  | Accept x nb => with_fd w x (fun s => u_accept w x s nb)
  | Send x a c f d data fault => with_fd w x (fun s => u_send w x s a c f d data fault)
  | Recv x c f d t cap fault => with_fd w x (fun s => u_recv w x s c f d t cap fault)
  | Close l => do (w, cs) <- close_files w l; Some (w, cs, ROk)
  | SockName x => with_fd w x (fun s => Some (w, [], u_sockname s))
  | PeerName x => with_fd w x (fun s => Some (w, [], u_peername s))
  | SetNonblock x b => with_fd w x (fun s => Some (upd w x (set_nonblock s b), [], ROk))
  end.
(** A system call and the callbacks it queued (callback_queue.rs:56-64). *)
Definition step (w : world) (o : uop) : option (world * ures * list note) :=
  do (w, cs, r) <- syscall w o;
  do (w, ns) <- run_queue w cs;
  Some (w, r, ns).
Definition init : world := mkW [] [] 0.
Fixpoint run (w : world) (ops : list uop) : option (world * list (ures * list note)) :=
  match ops with
  | [] => Some (w, [])
  | o :: ops => do (w, r, ns) <- step w o; do (w, outs) <- run w ops; Some (w, (r, ns) :: outs)
  end.
