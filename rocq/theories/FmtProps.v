(** C67: text buffers hold text, cut at a character, and count what is cut. *)
From Verif Require Import Base FmtModel FmtSpec FmtProofs.

(** Whatever text is written in whatever pieces: the buffer holds the longest part
    from the beginning, in whole characters, that fits with a NUL, and the count is
    that of all other bytes. *)
Theorem C67_writes : forall N ws, 1 <= N -> Forall (Forall scalar) ws ->
  exists b0 b, fnew N = Some b0 /\ writes N (map text ws) b0 = Some b /\ holds N (concat ws) b.
Proof. exact new_law. Qed.
Print Assumptions C67_writes.

(** "1", U+00A1, U+20AC (of which one byte would fit), "2" (which would fit). *)
Example C67_writes_ex :
  Forall (Forall scalar) [[49; 161]; [8364]; [50]]
  /\ writes 5 (map text [[49; 161]; [8364]; [50]]) (FBuf [] 0) = Some (FBuf [49; 194; 161] 4).
Proof.
  split; [|vm_compute; reflexivity].
  repeat (apply Forall_cons; [repeat (apply Forall_cons; [unfold scalar; lia|]); apply Forall_nil|]).
  apply Forall_nil.
Qed.

(** Any text written and any bytes printed, with resets: no panic, the buffer holds
    text, and NUL fits. *)
Theorem C67_safe : forall N os, 1 <= N -> Forall good_op os ->
  exists b0 b, fnew N = Some b0 /\ apply_ops N os b0 = Some b /\ safe N b.
Proof. exact ops_law. Qed.
Print Assumptions C67_safe.

(** Each operation but a reset only appends, never lowers the count, and once
    something has been cut nothing is appended; a reset empties the buffer. *)
Theorem C67_append : forall N o b, safe N b -> good_op o ->
  exists b', apply_op N o b = Some b' /\ safe N b'
    /\ (o <> Reset -> (exists more, b_text b' = b_text b ++ more)
        /\ b_trunc b <= b_trunc b' /\ (0 < b_trunc b -> b_text b' = b_text b))
    /\ (o = Reset -> b' = FBuf [] 0).
Proof. exact op_law. Qed.
Print Assumptions C67_append.

Example C67_safe_ex :
  Forall good_op [Printf [49; 128; 129; 50]; Write [51; 52; 53]; Printf [54]; Reset; Write [55]]
  /\ apply_ops 8 [Printf [49; 128; 129; 50]; Write [51; 52; 53]; Printf [54]] (FBuf [] 0)
     = Some (FBuf [49; 239; 191; 189; 50; 51; 52] 2)
  /\ apply_ops 8 [Reset; Write [55]] (FBuf [49; 239; 191; 189; 50; 51; 52] 2) = Some (FBuf [55] 0).
Proof.
  split; [|split; vm_compute; reflexivity].
  repeat (apply Forall_cons; [cbn; first [exact Logic.I
    | exists [51; 52; 53]; split; [repeat (apply Forall_cons; [unfold scalar; lia|]); apply Forall_nil|reflexivity]
    | exists [55]; split; [repeat (apply Forall_cons; [unfold scalar; lia|]); apply Forall_nil|reflexivity]]|]).
  apply Forall_nil.
Qed.

(** What is printed: the first bytes of the output, decoded with replacement
    characters, as far as they fit. *)
Theorem C67_printf : forall N all b out, holds N all b ->
  exists cs b', lossy (firstn (Z.to_nat (N - 1)) out) cs /\ holds N (all ++ cs) b'
    /\ sprintf N out b = Some (FBuf (b_text b') (b_trunc b' + Z.max 0 (len out - (N - 1)))).
Proof. exact sprintf_law. Qed.
Print Assumptions C67_printf.

(** Text that fits is printed as it is. *)
Theorem C67_printf_fits : forall N b out, is_text (b_text b) -> b_trunc b = 0 -> is_text out ->
  len (b_text b) + len out < N -> sprintf N out b = Some (FBuf (b_text b ++ out) 0).
Proof. exact sprintf_fits. Qed.
Print Assumptions C67_printf_fits.

Example C67_printf_fits_ex :
  is_text (b_text (FBuf [49] 0)) /\ is_text [226; 130; 172; 50] /\ len [49] + len [226; 130; 172; 50] < 6
  /\ sprintf 6 [226; 130; 172; 50] (FBuf [49] 0) = Some (FBuf [49; 226; 130; 172; 50] 0)
  /\ sprintf 5 [226; 130; 172; 50] (FBuf [49] 0) = Some (FBuf [49; 226; 130; 172] 1).
Proof.
  split; [exists [49]; split; [repeat (apply Forall_cons; [unfold scalar; lia|]); apply Forall_nil|reflexivity]|].
  split; [exists [8364; 50]; split; [repeat (apply Forall_cons; [unfold scalar; lia|]); apply Forall_nil|reflexivity]|].
  split; [vm_compute; reflexivity|]. split; vm_compute; reflexivity.
Qed.

(** "Text that does not fit is cut": false, the output of vsnprintf may end within
    a character, which becomes a replacement character although all of the output
    was text. *)
Theorem C67_printf_cuts_refuted : exists N out b,
  is_text out /\ sprintf N out (FBuf [] 0) = Some b
  /\ forall rest, out <> b_text b ++ rest.
Proof.
  exists 8, [97; 98; 99; 100; 240; 144; 141; 136]. eexists.
  split; [exists [97; 98; 99; 100; 66376]; split;
    [repeat (apply Forall_cons; [unfold scalar; lia|]); apply Forall_nil|reflexivity]|].
  split; [vm_compute; reflexivity|]. intros rest E. cbn in E. discriminate E.
Qed.
Print Assumptions C67_printf_cuts_refuted.

(** Decoding: for all bytes it ends, with one replacement character for each
    stretch of bytes where no character starts. *)
Theorem C67_decode : forall bs, exists cs, decode (length bs) bs = Some (map encode cs) /\ lossy bs cs.
Proof. exact decode_bytes. Qed.
Print Assumptions C67_decode.

(** That determines the result. *)
Theorem C67_decode_unique : forall bs cs, lossy bs cs -> forall cs', lossy bs cs' ->
  map encode cs = map encode cs'.
Proof. exact lossy_det. Qed.
Print Assumptions C67_decode_unique.

Theorem C67_decode_text : forall cs, Forall scalar cs ->
  decode (length (text cs)) (text cs) = Some (map encode cs).
Proof. exact decode_text. Qed.
Print Assumptions C67_decode_text.

(** A surrogate, an overlong form, a cut character, and characters of all lengths. *)
Example C67_decode_ex :
  decode 20 [237; 160; 128; 65; 192; 128; 194; 161; 226; 130; 226; 130; 172; 240; 144; 141; 136; 255; 200; 66]
  = Some (map encode [65533; 65; 65533; 161; 65533; 8364; 66376; 65533; 66]).
Proof. vm_compute. reflexivity. Qed.
