(** C66: capture files say what packets passed an interface. *)
From Verif Require Import Base PcapModel PcapSpec PcapProofs.

(** For any packets at any times and any limit: capturing succeeds, the file is a
    capture file with that limit, and its records are, in order, one for each
    packet, with its time, its length and its first bytes. *)
Theorem C66_file : forall limit ps,
  u32 limit -> Forall (fun x => 0 <= fst x /\ wf (snd x)) ps ->
  exists f rs, captures limit ps (pcap_new limit) = Some f
    /\ parse (f_bytes f) = Some (limit, rs) /\ Forall2 (says limit) ps rs.
Proof. exact file_law. Qed.
Print Assumptions C66_file.

(** If the limit allows whole packets, a reader learns the addresses, ports,
    flags, numbers, window, window scale and payload of each. *)
Theorem C66_whole : forall limit ps,
  65535 <= limit < 4294967296 -> Forall (fun x => 0 <= fst x /\ wf (snd x)) ps ->
  exists f rs, captures limit ps (pcap_new limit) = Some f
    /\ parse (f_bytes f) = Some (limit, rs)
    /\ map (fun r => dissect (c_bytes r)) rs = map (fun x => Some (told (snd x))) ps.
Proof. exact whole_law. Qed.
Print Assumptions C66_whole.

(** The bytes of a packet are as many as its length (which is what bandwidth
    limits count), and are read back as the packet. *)
Theorem C66_packet : forall p, wf p ->
  exists pieces, display p = Some pieces /\ dissect (concat pieces) = Some (told p)
    /\ len (concat pieces) = packet_len p.
Proof. exact display_law. Qed.
Print Assumptions C66_packet.

(** A packet given in pieces (with the captured length filled in afterwards)
    and the same packet given as one buffer make the same file. *)
Theorem C66_same_file : forall limit sec usec pieces f,
  0 <= limit -> len (concat pieces) <= 4294967295 -> f_pos f = len (f_bytes f) ->
  exists g, write_packet limit sec usec (len (concat pieces)) pieces f = Some g
    /\ write_packet_buf limit sec usec (concat pieces) f = Some g.
Proof. exact same_file. Qed.
Print Assumptions C66_same_file.

(** A SYN with a window scale, and a datagram that is cut within its payload. *)
Definition ex_syn := Packet 184549377 184549378 (Tcp (TcpHeader 10000 80 2 4294967290 0 65535 (Some 7)) []).
Definition ex_data := Packet 184549377 184549378
  (Tcp (TcpHeader 10000 80 80 7 9 500 None) [[72; 101]; []; [108; 108; 111]]).
Definition ex_udp := Packet 1 4294967295 (Udp 53 65535 [1; 2; 3; 4; 5; 6; 7; 8; 9; 10; 11; 12; 13; 14; 15; 16; 17; 18; 19; 20]).
Definition ex_run := [(1500000999, ex_syn); (1500001000, ex_data); (2000000000, ex_udp)].

Example C66_wf : Forall (fun x => 0 <= fst x /\ wf (snd x)) ex_run.
Proof.
  repeat (apply Forall_cons; [unfold wf, u32, u16, u8; cbn; repeat split;
    try lia; try congruence; intros; try (match goal with H : Some _ = Some _ |- _ => injection H as <- end); try lia; try discriminate|]).
  apply Forall_nil.
Qed.

Example C66_cut :
  exists f, captures 45 ex_run (pcap_new 45) = Some f
    /\ option_map (fun x => map (fun r => (c_sec r, c_usec r, c_orig r, len (c_bytes r), dissect (c_bytes r))) (snd x))
         (parse (f_bytes f))
       = Some [(1, 500000, 44, 44, Some (SeenTcp 184549377 184549378 10000 80 2 4294967290 0 65535 (Some 7) []));
               (1, 500001, 45, 45, Some (SeenTcp 184549377 184549378 10000 80 16 7 9 500 None [72; 101; 108; 108; 111]));
               (2, 0, 48, 45, None)].
Proof. eexists. split; [vm_compute; reflexivity|]. vm_compute. reflexivity. Qed.

(** A packet in pieces, cut within the second. *)
Example C66_pieces :
  len (concat [[1; 2]; [3; 4; 5]]) <= 4294967295 /\ f_pos (pcap_new 3) = len (f_bytes (pcap_new 3))
  /\ option_map (fun f => skipn 24 (f_bytes f)) (write_packet 3 1 2 5 [[1; 2]; [3; 4; 5]] (pcap_new 3))
     = Some [1; 0; 0; 0; 2; 0; 0; 0; 3; 0; 0; 0; 5; 0; 0; 0; 1; 2; 3].
Proof. repeat (split; [vm_compute; first [reflexivity|discriminate]|]). vm_compute. reflexivity. Qed.
