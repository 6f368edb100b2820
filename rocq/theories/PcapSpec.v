(** How a capture file and the packets in it are read: the libpcap file format,
    RFC 791 (IPv4), RFC 9293 (TCP), RFC 768 (UDP). *)
From Verif Require Import Base PcapModel.

Definition at_ (bs : list Z) (i : nat) : Z := nth i bs 0.
Definition get_le16 (bs : list Z) (i : nat) : Z := at_ bs i + 256 * at_ bs (i + 1).
Definition get_le32 (bs : list Z) (i : nat) : Z := get_le16 bs i + 65536 * get_le16 bs (i + 2).
Definition get_be16 (bs : list Z) (i : nat) : Z := 256 * at_ bs i + at_ bs (i + 1).
Definition get_be32 (bs : list Z) (i : nat) : Z := 65536 * get_be16 bs i + get_be16 bs (i + 2).

(** A record of the file: time, original length, captured bytes. *)
Record rec := Rec { c_sec : Z; c_usec : Z; c_orig : Z; c_bytes : list Z }.

(** The records until the end of the file; [None] if it ends within one, or if
    one is longer than the file's limit or the original. *)
Fixpoint records (fuel : nat) (limit : Z) (bs : list Z) : option (list rec) :=
  match bs with
  | [] => Some []
  | _ =>
      match fuel with
      | O => None
      | S fuel =>
          let n := get_le32 bs 8 in
          let orig := get_le32 bs 12 in
          if (16 + n <=? len bs) && (n <=? limit) && (n <=? orig) then
            do rest <- records fuel limit (skipn (16 + Z.to_nat n) bs);
            Some (Rec (get_le32 bs 0) (get_le32 bs 4) orig
                      (firstn (Z.to_nat n) (skipn 16 bs)) :: rest)
          else None
      end
  end.

(** A capture file of raw IP packets, with its limit. *)
Definition parse (bs : list Z) : option (Z * list rec) :=
  if (24 <=? len bs) && (get_le32 bs 0 =? 2712847316) && (get_le16 bs 4 =? 2)
     && (get_le16 bs 6 =? 4) && (get_le32 bs 8 =? 0) && (get_le32 bs 20 =? 101)
  then
    do rs <- records (length bs) (get_le32 bs 16) (skipn 24 bs);
    Some (get_le32 bs 16, rs)
  else None.

(** What a reader learns from a packet. *)
Inductive seen :=
| SeenTcp (src dst sport dport flags seq ack window : Z) (scale : option Z) (payload : list Z)
| SeenUdp (src dst sport dport : Z) (payload : list Z).

(** the window scale among TCP options *)
Fixpoint scale_of (fuel : nat) (o : list Z) : option (option Z) :=
  match fuel, o with
  | _, [] => Some None
  | O, _ => None
  | S fuel, 0 :: _ => Some None
  | S fuel, 1 :: o => scale_of fuel o
  | S fuel, 3 :: 3 :: s :: _ => Some (Some s)
  | S fuel, _ :: n :: _ => if 2 <=? n then scale_of fuel (skipn (Z.to_nat n) o) else None
  | _, _ => None
  end.

(** A whole IPv4 packet (not a fragment). *)
Definition dissect (bs : list Z) : option seen :=
  let ihl := Z.to_nat (at_ bs 0 mod 16 * 4) in
  let t := skipn ihl bs in
  let src := get_be32 bs 12 in
  let dst := get_be32 bs 16 in
  if (20 <=? len bs) && (at_ bs 0 / 16 =? 4) && (20 <=? Z.of_nat ihl)
     && (get_be16 bs 2 =? len bs) && (get_be16 bs 6 mod 16384 =? 0)
  then
    if at_ bs 9 =? 6 then
      let off := at_ t 12 / 16 * 4 in
      if (20 <=? off) && (off <=? len t) then
        do scale <- scale_of 40 (firstn (Z.to_nat off - 20) (skipn 20 t));
        Some (SeenTcp src dst (get_be16 t 0) (get_be16 t 2) (at_ t 13) (get_be32 t 4)
                      (get_be32 t 8) (get_be16 t 14) scale (skipn (Z.to_nat off) t))
      else None
    else if at_ bs 9 =? 17 then
      if (8 <=? len t) && (get_be16 t 4 =? len t)
      then Some (SeenUdp src dst (get_be16 t 0) (get_be16 t 2) (skipn 8 t))
      else None
    else None
  else None.

(** What a reader should learn: of the flags those of TCP proper (FIN, SYN, RST,
    PSH, ACK, URG). *)
Definition told (p : packet) : seen :=
  match p_data p with
  | Tcp h chunks =>
      SeenTcp (p_src p) (p_dst p) (t_src h) (t_dst h) (t_flags h mod 64) (t_seq h) (t_ack h)
              (t_window h) (t_scale h) (concat chunks)
  | Udp s d payload => SeenUdp (p_src p) (p_dst p) s d payload
  end.

Definition u8 (x : Z) := 0 <= x < 256.
Definition u16 (x : Z) := 0 <= x < 65536.
Definition u32 (x : Z) := 0 <= x < 4294967296.

(** Fields have their sizes, and the packet is a possible IPv4 packet. *)
Definition wf (p : packet) : Prop :=
  u32 (p_src p) /\ u32 (p_dst p)
  /\ match p_data p with
     | Tcp h chunks =>
         u16 (t_src h) /\ u16 (t_dst h) /\ u8 (t_flags h) /\ u32 (t_seq h) /\ u32 (t_ack h)
         /\ u16 (t_window h) /\ (forall s, t_scale h = Some s -> u8 s)
         /\ (match t_scale h with Some _ => 44 | None => 40 end) + len (concat chunks) <= 65535
     | Udp s d payload => u16 s /\ u16 d /\ 28 + len payload <= 65535
     end.

(** What a record should say of a packet that passed at a time (in nanoseconds):
    the time to the microsecond (as far as 32 bits of seconds go), the length of
    the packet, and its first bytes. *)
Definition says (limit : Z) (x : Z * packet) (r : rec) : Prop :=
  0 <= c_usec r < 1000000
  /\ (fst x < 4294967296 * 1000000000 -> c_sec r * 1000000 + c_usec r = fst x / 1000)
  /\ exists whole, dissect whole = Some (told (snd x)) /\ len whole = c_orig r /\ c_orig r <= 65535
       /\ c_bytes r = firstn (Z.to_nat limit) whole.
