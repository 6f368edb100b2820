(** Socket addresses in the memory of applications:
    src/main/utility/sockaddr.rs, and read_sockaddr and write_sockaddr_and_len of
    src/main/host/syscall/io.rs.

    Memory is initialised bytes; faults when copying are not modelled.  [None] is
    the [None] (or EINVAL) of the code. *)
From Verif Require Import Base.

Definition len (l : list Z) : Z := Z.of_nat (length l).

(** SockaddrStorage, sockaddr.rs:12-15: 128 bytes and a length *)
Record storage := Storage { g_bytes : list Z; g_len : Z }.

(** from_ptr and from_bytes, sockaddr.rs:47-78 *)
Definition from_bytes (bs : list Z) : option storage :=
  if 128 <? len bs then None
  else Some (Storage (bs ++ repeat 0 (128 - length bs)) (len bs)).

(** as_slice, sockaddr.rs:203-205 *)
Definition as_slice (s : storage) : list Z := firstn (Z.to_nat (g_len s)) (g_bytes s).

(** the 16-bit number at the start (native byte order is little endian) *)
Definition first16 (bs : list Z) : Z := nth 0 bs 0 + 256 * nth 1 bs 0.

(** family, sockaddr.rs:82-90 *)
Definition family (s : storage) : option Z :=
  if g_len s <? 2 then None else Some (first16 (g_bytes s)).

(** as_inet, as_inet6 and as_netlink, sockaddr.rs:94-110, 124-140, 171-185, with
    the size and the family of the type *)
Definition as_kind (size fam : Z) (s : storage) : option (list Z) :=
  if g_len s <? size then None
  else match family s with
       | Some f => if f =? fam then Some (firstn (Z.to_nat size) (g_bytes s)) else None
       | None => None
       end.
Definition as_inet := as_kind 16 2.
Definition as_inet6 := as_kind 28 10.
Definition as_netlink := as_kind 12 16.

(** SockaddrUnix, sockaddr.rs:309-315: the 110 bytes of a sockaddr_un *)
Record unix := Unix { u_bytes : list Z; u_len : Z }.

(** SockaddrUnix::new, sockaddr.rs:325-339 *)
Definition unix_new (bs : list Z) (n : Z) : option unix :=
  if n <? 2 then None
  else if 110 <? n then None
  else if negb (first16 bs =? 1) then None
  else Some (Unix bs n).

(** as_unix, sockaddr.rs:154-160 *)
Definition as_unix (s : storage) : option unix :=
  match family s with
  | Some f => if f =? 1 then unix_new (firstn 110 (g_bytes s)) (g_len s) else None
  | None => None
  end.

(** sun_path, sockaddr.rs:382-387 *)
Definition sun_path (u : unix) : option (list Z) :=
  if u_len u <? 2 then None else Some (firstn (Z.to_nat (u_len u - 2)) (skipn 2 (u_bytes u))).

(** CStr::from_bytes_until_nul *)
Fixpoint until_nul (bs : list Z) : option (list Z) :=
  match bs with
  | [] => None
  | b :: r => if b =? 0 then Some []
              else match until_nul r with Some p => Some (b :: p) | None => None end
  end.

(** as_path, sockaddr.rs:343-354 *)
Definition as_path (u : unix) : option (list Z) :=
  match sun_path u with
  | None | Some [] => None
  | Some (b :: r) => if b =? 0 then None else until_nul (b :: r)
  end.

(** as_abstract, sockaddr.rs:359-372 *)
Definition as_abstract (u : unix) : option (list Z) :=
  match sun_path u with
  | None | Some [] => None
  | Some (b :: r) => if b =? 0 then Some r else None
  end.

(** is_unnamed, sockaddr.rs:376-378 *)
Definition is_unnamed (u : unix) : bool := u_len u =? 2.

(** new_path, sockaddr.rs:428-455 *)
Definition new_path (path : list Z) : option unix :=
  match path with
  | [] => None
  | _ => if 108 <=? len path then None
         else Some (Unix ([1; 0] ++ path ++ repeat 0 (108 - length path)) (2 + len path + 1))
  end.

(** new_abstract, sockaddr.rs:459-473 *)
Definition new_abstract (name : list Z) : option unix :=
  if 108 <? len name + 1 then None
  else Some (Unix ([1; 0; 0] ++ name ++ repeat 0 (107 - length name)) (2 + 1 + len name)).

(** new_unnamed, sockaddr.rs:476-485 *)
Definition new_unnamed : unix := Unix ([1; 0] ++ repeat 0 108) 2.

(** from_unix, sockaddr.rs:163-167 *)
Definition from_unix (u : unix) : option storage := from_bytes (firstn (Z.to_nat (u_len u)) (u_bytes u)).

(** equality, sockaddr.rs:530-537 *)
Definition list_eqb (a b : list Z) : bool :=
  (length a =? length b)%nat && forallb (fun x => fst x =? snd x) (combine a b).
Definition unix_eqb (a b : unix) : bool :=
  (u_len a =? u_len b)
  && match sun_path a, sun_path b with
     | Some x, Some y => list_eqb x y
     | None, None => true
     | _, _ => false
     end.

(** SocketAddrV4 as a sockaddr_in (from_inet, sockaddr.rs:113-120 and 286-290, with
    the conversion of the nix crate), and back *)
Definition from_v4 (ip port : Z) : option storage :=
  from_bytes ([2; 0; port / 256 mod 256; port mod 256;
               ip / 16777216 mod 256; ip / 65536 mod 256; ip / 256 mod 256; ip mod 256]
              ++ repeat 0 8).
Definition v4_of (bs : list Z) : Z * Z :=
  (16777216 * nth 4 bs 0 + 65536 * nth 5 bs 0 + 256 * nth 6 bs 0 + nth 7 bs 0,
   256 * nth 2 bs 0 + nth 3 bs 0).

(** write_sockaddr_and_len, io.rs:19-62, for a buffer of the size given: the
    buffer and the length after *)
Definition write_addr (s : storage) (buffer : list Z) : list Z * Z :=
  let from := as_slice s in
  if len buffer =? 0 then (buffer, len from)
  else
    let n := Z.to_nat (Z.min (len from) (len buffer)) in
    (firstn n from ++ skipn n buffer, len from).

(** read_sockaddr, io.rs:91-123, of an address that is not null, in memory with
    this length *)
Definition read_addr (mem : list Z) (n : Z) : option storage :=
  if 128 <? n then None else from_bytes (firstn (Z.to_nat n) mem).
