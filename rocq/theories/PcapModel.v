(** Packet captures: src/main/utility/pcap_writer.rs, src/main/utility/give.rs,
    the bytes of packets in src/main/network/packet.rs, and
    capture_if_configured of src/main/host/network/interface.rs.

    A file is its contents and a position.  Native byte order is little endian
    (x86-64, the only platform of Shadow).  Errors of the file system are not
    modelled; a panic is [None]. *)
From Verif Require Import Base.

Definition len (l : list Z) : Z := Z.of_nat (length l).

(** u16::to_ne_bytes, u32::to_ne_bytes, u16::to_be_bytes, u32::to_be_bytes *)
Definition le16 (x : Z) : list Z := [x mod 256; x / 256 mod 256].
Definition le32 (x : Z) : list Z :=
  [x mod 256; x / 256 mod 256; x / 65536 mod 256; x / 16777216 mod 256].
Definition be16 (x : Z) : list Z := [x / 256 mod 256; x mod 256].
Definition be32 (x : Z) : list Z :=
  [x / 16777216 mod 256; x / 65536 mod 256; x / 256 mod 256; x mod 256].

(** ** Packets, src/main/network/packet.rs *)

(** TcpHeader, packet.rs:572-583, without the fields that are not written *)
Record tcp_header := TcpHeader {
  t_src : Z; t_dst : Z; t_flags : Z; t_seq : Z; t_ack : Z; t_window : Z;
  t_scale : option Z
}.

(** Data, packet.rs:490-497: both kinds of TCP packets are written alike; the
    payload of TCP is in chunks *)
Inductive data :=
| Tcp (h : tcp_header) (payload : list (list Z))
| Udp (src dst : Z) (payload : list Z).

(** An IPv4 packet: addresses as 32-bit numbers *)
Record packet := Packet { p_src : Z; p_dst : Z; p_data : data }.

(** TcpHeader::len, packet.rs:617-634 *)
Definition tcp_header_len (h : tcp_header) : Z :=
  let n := 20 + match t_scale h with Some _ => 3 | None => 0 end in
  if n mod 4 =? 0 then n else n + (4 - n mod 4).

(** TcpData::payload_len, packet.rs:557-562 *)
Definition payload_len (chunks : list (list Z)) : Z :=
  fold_left (fun acc x => acc + len x) chunks 0.

(** Data::len, packet.rs:499-505, with TcpData::len (553-555), UdpData::len
    (712-714) and UdpHeader::len (737-740) *)
Definition data_len (d : data) : Z :=
  match d with
  | Tcp h chunks => tcp_header_len h + payload_len chunks
  | Udp _ _ payload => 8 + len payload
  end.

(** Packet::len, packet.rs:388-390 and 477-484 *)
Definition packet_len (p : packet) : Z := 20 + data_len (p_data p).

(** IanaProtocol::number, packet.rs:51-59 *)
Definition protocol (d : data) : Z := match d with Tcp _ _ => 6 | Udp _ _ _ => 17 end.

(** write_tcpdata_bytes, packet.rs:846-921: the pieces written, one for each
    write_all *)
Definition tcp_bytes (h : tcp_header) (chunks : list (list Z)) : option (list (list Z)) :=
  let options := match t_scale h with Some s => [3; 3; s] | None => [] end in
  let options :=
    if len options mod 4 =? 0 then options
    else options ++ repeat 0 (Z.to_nat (4 - len options mod 4)) in
  let header_len := 20 + len options in
  check (header_len =? tcp_header_len h);
  check (header_len <=? 255);
  let offset := header_len / 4 * 16 mod 256 in
  let flags := Z.land (t_flags h) 63 in
  Some ([be16 (t_src h); be16 (t_dst h); be32 (t_seq h); be32 (t_ack h);
         [offset; flags]; be16 (t_window h); be16 0; be16 0; options] ++ chunks).

(** write_udpdata_bytes, packet.rs:923-943 *)
Definition udp_bytes (src dst : Z) (payload : list Z) : option (list (list Z)) :=
  check (8 + len payload <=? 65535);
  Some [be16 src; be16 dst; be16 (8 + len payload); be16 0; payload].

(** Packet::display_bytes, packet.rs:800-843 *)
Definition display (p : packet) : option (list (list Z)) :=
  check (packet_len p <=? 65535);
  do rest <- match p_data p with
             | Tcp h chunks => tcp_bytes h chunks
             | Udp s d payload => udp_bytes s d payload
             end;
  Some ([[69; 0]; be16 (packet_len p); be16 0; be16 16384;
         [64; protocol (p_data p)]; be16 0; be32 (p_src p); be32 (p_dst p)] ++ rest).

(** ** Files *)
Record file := File { f_bytes : list Z; f_pos : Z }.

(** write_all at the current position *)
Definition put (bs : list Z) (f : file) : file :=
  File (firstn (Z.to_nat (f_pos f)) (f_bytes f) ++ bs
        ++ skipn (Z.to_nat (f_pos f + len bs)) (f_bytes f))
       (f_pos f + len bs).

(** seek(SeekFrom::Start(pos)) *)
Definition seek (pos : Z) (f : file) : file := File (f_bytes f) pos.

(** write_all of pieces through Give (give.rs:50-63): each write takes at most
    [limit] bytes; when nothing can be taken, write_all fails with WriteZero, and
    display_bytes ends *)
Fixpoint give (limit : Z) (pieces : list (list Z)) (f : file) : file :=
  match pieces with
  | [] => f
  | bs :: rest =>
      let n := Z.min (len bs) limit in
      let f := put (firstn (Z.to_nat n) bs) f in
      if n <? len bs then f else give (limit - n) rest f
  end.

(** ** PcapWriter, src/main/utility/pcap_writer.rs *)

(** PcapWriter::new and write_header, pcap_writer.rs:13-54, on an empty file *)
Definition pcap_new (capture_len : Z) : file :=
  put (le32 101) (put (le32 capture_len) (put (le32 0) (put (le32 0)
    (put (le16 4) (put (le16 2) (put (le32 2712847316) (File [] 0))))))).

(** PcapWriter::write_packet_fmt, pcap_writer.rs:85-141 *)
Definition write_packet (capture_len sec usec plen : Z) (pieces : list (list Z)) (f : file)
  : option file :=
  let f := put (le32 sec) f in
  let f := put (le32 usec) f in
  let pos_of_len := f_pos f in
  let f := put (le32 0) f in
  let f := put (le32 plen) f in
  let before := f_pos f in
  let f := give capture_len pieces f in
  let after := f_pos f in
  let written := after - before in
  check (written <=? capture_len);
  let f := put (le32 written) (seek pos_of_len f) in
  Some (seek after f).

(** NetworkInterface::capture_if_configured, interface.rs:192-217, at a time
    in nanoseconds.  (The error of write_packet_fmt, which ends the capture, is
    [None] here.) *)
Definition capture (capture_len : Z) (now : Z) (p : packet) (f : file) : option file :=
  let sec := Z.min (now / 1000000000) 4294967295 in
  let usec := now / 1000 mod 1000000 in
  let plen := Z.min (packet_len p) 4294967295 in
  do pieces <- display p;
  write_packet capture_len sec usec plen pieces f.

(** All packets that pass an interface. *)
Fixpoint captures (capture_len : Z) (ps : list (Z * packet)) (f : file) : option file :=
  match ps with
  | [] => Some f
  | (now, p) :: rest => do f <- capture capture_len now p f; captures capture_len rest f
  end.

(** PcapWriter::write_packet, pcap_writer.rs:57-80, from a buffer *)
Definition write_packet_buf (capture_len sec usec : Z) (bs : list Z) (f : file) : option file :=
  check (len bs <=? 4294967295);
  let n := Z.min (len bs) capture_len in
  Some (put (firstn (Z.to_nat n) bs) (put (le32 (len bs)) (put (le32 n)
          (put (le32 usec) (put (le32 sec) f))))).
