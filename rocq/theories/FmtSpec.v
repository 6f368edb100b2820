(** Text in UTF-8 (RFC 3629), and what it means to decode bytes that may not be. *)
From Verif Require Import Base FmtModel.

Definition scalar (c : Z) : Prop := 0 <= c < 55296 \/ 57344 <= c < 1114112.

Definition encode (c : Z) : list Z :=
  if c <? 128 then [c]
  else if c <? 2048 then [192 + c / 64; 128 + c mod 64]
  else if c <? 65536 then [224 + c / 4096; 128 + c / 64 mod 64; 128 + c mod 64]
  else [240 + c / 262144; 128 + c / 4096 mod 64; 128 + c / 64 mod 64; 128 + c mod 64].

(** the text of some characters *)
Definition text (cs : list Z) : list Z := flat_map encode cs.
Definition is_text (bs : list Z) : Prop := exists cs, Forall scalar cs /\ bs = text cs.

(** [bs] starts with a character *)
Definition starts (bs : list Z) : Prop := exists c r, scalar c /\ bs = encode c ++ r.

(** Every stretch of bytes where no character starts becomes one replacement
    character (U+FFFD). *)
Inductive lossy : list Z -> list Z -> Prop :=
| L_nil : lossy [] []
| L_char c r cs : scalar c -> lossy r cs -> lossy (encode c ++ r) (c :: cs)
| L_junk j r cs : j <> [] ->
    (forall k, (k < length j)%nat -> ~ starts (skipn k (j ++ r))) ->
    r = [] \/ starts r -> lossy r cs -> lossy (j ++ r) (65533 :: cs).

(** A buffer of [N] bytes (one for NUL) holds as many of the characters as fit,
    and counts the bytes of the others. *)
Definition holds (N : Z) (all : list Z) (b : fbuf) : Prop :=
  exists cs1 cs2, all = cs1 ++ cs2 /\ b_text b = text cs1 /\ b_trunc b = len (text cs2)
    /\ len (text cs1) < N /\ forall c cs, cs2 = c :: cs -> N <= len (text (cs1 ++ [c])).

(** Rust programs write text. *)
Definition good_op (o : op) : Prop := match o with Write src => is_text src | _ => True end.

(** The buffer holds text (as_str does not check it), and there is place for NUL. *)
Definition safe (N : Z) (b : fbuf) : Prop :=
  is_text (b_text b) /\ len (b_text b) < N /\ 0 <= b_trunc b.
