(** What a sender with selective acknowledgements owes its peer, in terms of
    sets of packets; and what the blocks of selective acknowledgements say. *)
From Coq Require Import ZArith List Bool.
From Verif Require Import TallyModel.
Import ListNotations.
Local Open Scope Z_scope.

(** [x] lies in one of the half-open ranges. *)
Definition inside (rs : list (Z * Z)) (x : Z) : Prop :=
  exists r, In r rs /\ fst r <= x < snd r.

(** What a sender knows: the highest acknowledgement (everything below it has
    arrived), how often it was repeated, the packets ever found to be lost, those
    the peer says to have, and those sent again since the last timeout. *)
Record world : Type := mkWorld {
  w_ack : Z;
  w_dups : Z;
  w_lost : Z -> Prop;
  w_has : Z -> Prop;
  w_again : Z -> Prop
}.

Definition nobody (x : Z) : Prop := False.
Definition both (p q : Z -> Prop) (x : Z) : Prop := p x \/ q x.

Definition world0 : world := mkWorld (-1) 0 nobody nobody nobody.

(** The highest acknowledgement and its repetitions after another one. *)
Definition heard (a : Z) (dup : bool) (w : world) : Z * Z :=
  if w_ack w <? a then (a, 0)
  else if (a =? w_ack w) && dup then (w_ack w, w_dups w + 1)
  else (w_ack w, w_dups w).

(** [obeys w ev due w']: on the event the packets to be sent again are [due]. *)
Inductive obeys (w : world) : event -> (Z -> Prop) -> world -> Prop :=
  | ob_data sacks :
      obeys w (Packet None sacks) nobody
        (mkWorld (w_ack w) (w_dups w) (w_lost w) (both (w_has w) (inside sacks)) (w_again w))
  (** fewer than three repetitions, or the packet was sent again already *)
  | ob_quiet a dup sacks ack dups :
      heard a dup w = (ack, dups) ->
      dups < 3 \/ w_again w ack ->
      obeys w (Packet (Some (a, dup)) sacks) nobody
        (mkWorld ack dups (w_lost w) (both (w_has w) (inside sacks)) (w_again w))
  (** the third repetition: the packet that the peer waits for is lost *)
  | ob_loss a dup sacks ack dups lost due :
      heard a dup w = (ack, dups) ->
      3 <= dups -> ~ w_again w ack ->
      lost = both (w_lost w) (fun x => x = ack) ->
      due = (fun x => lost x /\ ~ w_has w x /\ ~ w_again w x) ->
      obeys w (Packet (Some (a, dup)) sacks) due
        (mkWorld ack dups lost (both (w_has w) (inside sacks)) (both (w_again w) due))
  (** after a timeout everything sent and not acknowledged is lost, and what was
      sent again may be lost too *)
  | ob_timeout b e lost due :
      b <= e ->
      lost = both (w_lost w) (fun x => b <= x < Z.max e (b + 1)) ->
      due = (fun x => lost x /\ ~ w_has w x) ->
      obeys w (Timeout b e) due (mkWorld (w_ack w) (w_dups w) lost (w_has w) due)
  (** nothing has been sent that is not acknowledged *)
  | ob_idle b e :
      b = e + 1 ->
      obeys w (Timeout b e) nobody (mkWorld (w_ack w) (w_dups w) (w_lost w) (w_has w) nobody).

Fixpoint increasing (l : list Z) : Prop :=
  match l with
  | [] => True
  | x :: t => (forall y, In y t -> x < y) /\ increasing t
  end.

(** [story w evs outs w']: after each event exactly the packets that are due are
    asked for, each once; numbers below the highest acknowledgement do not
    matter, since their packets are gone. *)
Inductive story (w : world) : list event -> list (list Z) -> world -> Prop :=
  | story_end : story w [] [] w
  | story_step ev evs out outs due w1 w2 :
      obeys w ev due w1 ->
      increasing out ->
      (forall x, w_ack w1 <= x -> In x out <-> due x) ->
      story w1 evs outs w2 ->
      story w (ev :: evs) (out :: outs) w2.

(** The events of a connection: 32-bit numbers that do not wrap around, and
    blocks that are not empty. *)
Definition good_block (r : Z * Z) : Prop := 0 <= fst r /\ fst r < snd r /\ snd r < 2 ^ 32.

Definition good_event (ev : event) : Prop :=
  match ev with
  | Packet ack sacks =>
      match ack with Some (a, _) => 0 <= a < 2 ^ 32 - 1 | None => True end
      /\ Forall good_block sacks
  | Timeout b e => 0 <= b <= e + 1 /\ 0 <= e < 2 ^ 32 - 1
  end.

(** The highest acknowledgement among some events. *)
Fixpoint highest (evs : list event) : Z :=
  match evs with
  | [] => -1
  | Packet (Some (a, _)) _ :: t => Z.max a (highest t)
  | _ :: t => highest t
  end.

Definition is_timeout (ev : event) : Prop := match ev with Timeout _ _ => True | _ => False end.

(** A list in non-decreasing order. *)
Fixpoint in_order (l : list Z) : Prop :=
  match l with
  | [] => True
  | x :: t => (forall y, In y t -> x <= y) /\ in_order t
  end.

(** Blocks in order with gaps between them. *)
Fixpoint apart (rs : list (Z * Z)) : Prop :=
  match rs with
  | [] => True
  | r :: t => fst r < snd r /\ (forall r', In r' t -> snd r < fst r') /\ apart t
  end.
